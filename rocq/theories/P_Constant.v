(** Piecewise constant potentials: the step matrices are exact, solutions exist. *)
From Coq Require Import Reals ZArith Lra Lia Bool.
From Coquelicot Require Import Coquelicot.
From Coq Require Import List.
From Verif Require Import Base M_Sectors S_Sectors P_Lookup M_Core S_Core P_Core P_Core2 P_Prufer S_Eta P_Eta S_Formulas M_Formulas P_Formulas5 T_Formulas P_Terms2 S_Accuracy S_Zeros P_Lift P_Lift2 P_Cross P_Global2 P_Global3 P_Step P_Step2 P_Count P_Count2.
Import ListNotations.
Open Scope R_scope.

Definition Cw (w x : R) : R := eta 0 (w * (x * x)).
Definition Sw (w x : R) : R := x * eta 1 (w * (x * x)).
Lemma Cw_derive : forall w x, is_derive (Cw w) x (w * Sw w x).
Proof.
  intros w x. unfold Cw, Sw. evar_last.
  - apply (is_derive_comp (eta 0) (fun x => w * (x * x))); [apply eta_derive|]. auto_derive; [exact I|reflexivity].
  - unfold scal; simpl; unfold mult; simpl. field.
Qed.
Lemma Sw_derive : forall w x, is_derive (Sw w) x (Cw w x).
Proof.
  intros w x. unfold Cw, Sw. evar_last.
  - apply (is_derive_mult (fun x => x) (fun x => eta 1 (w * (x * x)))).
    + apply is_derive_id.
    + apply (is_derive_comp (eta 1) (fun x => w * (x * x))); [apply eta_derive|]. auto_derive; [exact I|reflexivity].
    + intros; apply Rmult_comm.
  - unfold plus, scal, one, mult; simpl; unfold scal; simpl; unfold mult; simpl. rewrite (eta_rec 0). simpl. field.
Qed.
Lemma Cw_0 : forall w, Cw w 0 = 1. Proof. intro w. unfold Cw. rewrite Rmult_0_l, Rmult_0_r, eta_at_0. cbn. field. Qed.
Lemma Sw_0 : forall w, Sw w 0 = 0. Proof. intro w. unfold Sw. ring. Qed.
Lemma const_mvt : forall (f : R -> R) p q, p <= q -> (forall x, p < x < q -> is_derive f x 0) -> (forall x, p <= x <= q -> continuous f x) -> f q = f p.
Proof.
  intros f p q Hpq D C. apply Rle_antisym.
  - apply (open_mvt f (fun _ => 0) p q Hpq D C). intros; lra.
  - enough (- f q <= - f p) by lra. apply (open_mvt (fun x => - f x) (fun _ => 0) p q Hpq).
    + intros x Hx. evar_last; [apply (is_derive_opp f), D, Hx|]. unfold opp; simpl. ring.
    + intros x Hx. apply (continuous_opp f), C, Hx.
    + intros; lra.
Qed.
Lemma CS_1 : forall w x, Cw w x * Cw w x - w * (Sw w x * Sw w x) = 1.
Proof.
  intros w x. set (f := fun x => Cw w x * Cw w x - w * (Sw w x * Sw w x)).
  assert (forall t, is_derive f t 0) as D.
  { intro t. unfold f. evar_last.
    - apply (is_derive_minus (fun x => Cw w x * Cw w x) (fun x => w * (Sw w x * Sw w x))).
      + apply (is_derive_mult (Cw w) (Cw w)); [apply Cw_derive|apply Cw_derive|intros; apply Rmult_comm].
      + apply (is_derive_scal (fun x => Sw w x * Sw w x)). apply (is_derive_mult (Sw w) (Sw w)); [apply Sw_derive|apply Sw_derive|intros; apply Rmult_comm].
    - unfold minus, plus, opp, mult; simpl. ring. }
  assert (f x = f 0) as E.
  { destruct (Rle_lt_dec 0 x); [|symmetry]; apply const_mvt; try lra; intros; try apply D; apply (ex_derive_continuous f); exists 0; apply D. }
  unfold f in E. rewrite E, Cw_0, Sw_0. ring.
Qed.

Lemma const_flow : forall w h (y y' : R -> R), 0 <= h -> (forall x, 0 <= x <= h -> continuous y x /\ continuous y' x) ->
  (forall x, 0 < x < h -> is_derive y x (y' x) /\ is_derive y' x (w * y x)) ->
  y h = Cw w h * y 0 + Sw w h * y' 0 /\ y' h = w * Sw w h * y 0 + Cw w h * y' 0.
Proof.
  intros w h y y' Hh C D.
  assert (forall (f g df dg : R -> R) x, is_derive f x (df x) -> is_derive g x (dg x) -> is_derive (fun x => f x * g x) x (df x * g x + f x * dg x)) as DM.
  { intros f g df dg x Hf Hg. apply (is_derive_mult f g x (df x) (dg x)); [exact Hf|exact Hg|intros; apply Rmult_comm]. }
  assert (forall f : R -> R, (forall x, ex_derive f x) -> forall x, continuous f x) as EC by (intros f Hf x; apply (ex_derive_continuous f), Hf).
  assert (forall x, continuous (Cw w) x) as CC by (apply EC; intro x; eexists; apply Cw_derive).
  assert (forall x, continuous (Sw w) x) as CS by (apply EC; intro x; eexists; apply Sw_derive).
  assert (y h * Cw w h - y' h * Sw w h = y 0) as A.
  { replace (y 0) with (y 0 * Cw w 0 - y' 0 * Sw w 0) by (rewrite Cw_0, Sw_0; ring).
    apply (const_mvt (fun x => y x * Cw w x - y' x * Sw w x) 0 h Hh).
    - intros x Hx. destruct (D x Hx) as [D1 D2]. evar_last.
      + apply (is_derive_minus (fun x => y x * Cw w x) (fun x => y' x * Sw w x)).
        * apply (DM y (Cw w) y' (fun x => w * Sw w x) x D1 (Cw_derive w x)).
        * apply (DM y' (Sw w) (fun x => w * y x) (Cw w) x D2 (Sw_derive w x)).
      + unfold minus, plus, opp; simpl. ring.
    - intros x Hx. destruct (C x Hx). apply (continuous_minus (fun x => y x * Cw w x) (fun x => y' x * Sw w x)); [apply (continuous_mult y (Cw w))|apply (continuous_mult y' (Sw w))]; auto. }
  assert (y' h * Cw w h - w * (y h * Sw w h) = y' 0) as B.
  { replace (y' 0) with (y' 0 * Cw w 0 - w * (y 0 * Sw w 0)) by (rewrite Cw_0, Sw_0; ring).
    apply (const_mvt (fun x => y' x * Cw w x - w * (y x * Sw w x)) 0 h Hh).
    - intros x Hx. destruct (D x Hx) as [D1 D2]. evar_last.
      + apply (is_derive_minus (fun x => y' x * Cw w x) (fun x => w * (y x * Sw w x))).
        * apply (DM y' (Cw w) (fun x => w * y x) (fun x => w * Sw w x) x D2 (Cw_derive w x)).
        * apply (is_derive_scal (fun x => y x * Sw w x)). apply (DM y (Sw w) y' (Cw w) x D1 (Sw_derive w x)).
      + unfold minus, plus, opp; simpl. ring.
    - intros x Hx. destruct (C x Hx). apply (continuous_minus (fun x => y' x * Cw w x) (fun x => w * (y x * Sw w x))); [apply (continuous_mult y' (Cw w)); auto|].
      apply (continuous_mult (fun _ => w) (fun x => y x * Sw w x)); [apply continuous_const|apply (continuous_mult y (Sw w)); auto]. }
  pose proof (CS_1 w h) as U. rewrite <- A, <- B. split.
  - replace (y h) with (y h * (Cw w h * Cw w h - w * (Sw w h * Sw w h))) at 1 by (rewrite U; ring). ring.
  - replace (y' h) with (y' h * (Cw w h * Cw w h - w * (Sw w h * Sw w h))) at 1 by (rewrite U; ring). ring.
Qed.

Lemma const_entries : forall (s : sec) E u x, (forall k, (1 <= k <= 15)%nat -> nth k (spay s) 0 = 0) -> reachable s x ->
  let d := from_base s x in let T := calculateT eta_exact s E d u in let w := v0 s - E in
  t00 T = Cw w d /\ t01 T = Sw w d /\ t10 T = w * Sw w d /\ t11 T = Cw w d.
Proof.
  intros s E u x Hv Hr d T w. fold d in Hr. unfold T.
  destruct (C14_constant_potential (fun k => nth k (spay s) 0) (sh s) E d Hv) as [P F]. cbv zeta in P, F.
  change (nth 0 (spay s) 0) with (v0 s) in P, F. fold w in P, F.
  assert (forall d, w * d * eta 1 (w * (d * d)) = w * Sw w d) as Q by (intro; unfold Sw; ring).
  destruct Hr as [H0|[H1 H2]].
  - fold d in H0. rewrite H0. rewrite calculateT_small by (rewrite Rabs_R0; unfold EPS12; left; apply Rinv_0_lt_compat, pow_lt; lra).
    cbn. rewrite Cw_0, Sw_0. repeat split; ring.
  - fold d in H1, H2. assert (0 < / 10 ^ 12) as He by (apply Rinv_0_lt_compat, pow_lt; lra).
    assert (EPS12 < Rabs d) as Hd by (unfold EPS12; rewrite Rabs_right by lra; exact H1).
    destruct u; [destruct H2 as [H2|H2]|].
    + rewrite calculateT_full; [|exact Hd|rewrite H2, Rminus_eq_0, Rabs_R0; unfold EPS12; lra]. rewrite H2 in *. rewrite <- Q. exact F.
    + rewrite calculateT_partial; [|exact Hd|right; unfold EPS12; rewrite Rabs_left by lra; lra]. rewrite <- Q. exact P.
    + rewrite calculateT_partial; [|exact Hd|left; reflexivity]. rewrite <- Q. exact P.
Qed.
Lemma base_range : forall s x, directed s -> smin s < smax s -> 0 <= from_base s x <= sh s.
Proof. intros s x [D|D] H; unfold from_base, reach, sh; rewrite D; unfold Rmax, Rmin; repeat destruct (Rle_dec _ _); lra. Qed.

Lemma const_exact : forall V E u s x, directed s -> smin s < smax s -> constant_on V s -> reachable s x -> exact_to (calculateT eta_exact) V E u s x.
Proof.
  intros V E u s x Dd Hlt [Hv HV] Hr. unfold exact_to. cbv zeta.
  destruct (const_entries s E u x Hv Hr) as (E0 & E1 & E2 & E3). pose proof (base_range s x Dd Hlt) as [Rg0 Rg1].
  set (d := from_base s x) in *. set (w := v0 s - E) in *. split.
  - unfold det. rewrite E0, E1, E2, E3. rewrite <- (CS_1 w d). ring.
  - intros y y' [C D].
    assert (sol_on V E (smin s) (smax s) y y') as Sol by (split; [exact C|intros t Ht; apply (D s t); [left; reflexivity|exact Ht]]).
    rewrite E0, E1, E2, E3. destruct Dd as [Dd|Dd]; rewrite Dd.
    + assert (d = reach s x - smin s) as Ed by (unfold d, from_base; rewrite Dd; reflexivity).
      pose proof (shift_local V E (smin s) (smax s) y y' Sol) as [L1 L2].
      assert (d <= smax s - smin s) by (unfold sh in Rg1; lra).
      destruct (const_flow w d (fun t => y (smin s + t)) (fun t => y' (smin s + t))) as [F1 F2]; [exact Rg0| | |].
      * intros t Ht. apply L1. lra.
      * intros t Ht. destruct (L2 t ltac:(lra)) as [A1 A2]. split; [exact A1|]. rewrite HV in A2 by lra. exact A2.
      * cbv beta in F1, F2. replace (smin s + d) with (reach s x) in F1, F2 by (rewrite Ed; ring). rewrite Rplus_0_r in F1, F2. split; symmetry; assumption.
    + assert (d = smax s - reach s x) as Ed by (unfold d, from_base; rewrite Dd; reflexivity).
      pose proof (mirror_local V E (smin s) (smax s) y y' Sol) as [L1 L2].
      assert (d <= smax s - smin s) by (unfold sh in Rg1; lra).
      destruct (const_flow w d (fun t => y (smax s - t)) (fun t => - y' (smax s - t))) as [F1 F2]; [exact Rg0| | |].
      * intros t Ht. apply L1. lra.
      * intros t Ht. destruct (L2 t ltac:(lra)) as [A1 A2]. split; [exact A1|]. rewrite HV in A2 by lra. exact A2.
      * cbv beta in F1, F2. replace (smax s - d) with (reach s x) in F1, F2 by (rewrite Ed; ring). rewrite Rminus_0_r in F1, F2. split; symmetry; assumption.
Qed.
Lemma const_mean : forall V p q c, p <= q -> (forall x, p < x < q -> V x = c) -> mean_is V p q c.
Proof.
  intros V p q c Hpq HV. exists (fun x => c * x). split; [|split].
  - intros x _. apply (continuous_mult (fun _ => c) (fun x => x)); [apply continuous_const|apply continuous_id].
  - intros x Hx. rewrite (HV x Hx). auto_derive; [exact I|ring].
  - ring.
Qed.
Lemma mean_le : forall V p q c m, mean_is V p q c -> p <= q -> c <= m -> mean_at_most V p q m.
Proof. intros V p q c m (W & H1 & H2 & H3) Hpq Hc. exists W. split; [exact H1|]. split; [exact H2|]. rewrite H3. apply Rmult_le_compat_r; lra. Qed.
Lemma const_counting_ok : forall V E u a b s, directed s -> smin s < smax s -> constant_on V s -> reachable s a -> reachable s b ->
  counting_ok (calculateT eta_exact) V E u a b s.
Proof.
  intros V E u a b s Dd Hlt HC Ra Rb. pose proof HC as [Hv HV].
  assert (forall x, stretch_ok V E s x) as St.
  { intros x Hx HE. destruct Dd as [->| ->]; (apply (mean_le _ _ _ (v0 s)); [apply const_mean; [lra|intros t Ht; apply HV; lra]|lra|lra]). }
  split; [exact Dd|]. split; [exact Hlt|]. split; [|split; [apply const_exact; assumption|split; [apply const_exact; assumption|split; apply St]]].
  split; [apply const_mean; [lra|exact HV]|]. exists 0. split.
  - intros x Hx. rewrite (HV x Hx), Rminus_eq_0, Rabs_R0. lra.
  - pose proof PIpos. nra.
Qed.
(** points outside the sector are reachable *)
Lemma reachable_outside : forall s x, directed s -> / 10 ^ 12 < sh s -> x <= smin s \/ smax s <= x -> reachable s x.
Proof.
  intros s x Dd Hh Hx. assert (0 < / 10 ^ 12) as He by (apply Rinv_0_lt_compat, pow_lt; lra). unfold reachable.
  assert (from_base s x = 0 \/ from_base s x = sh s) as [->| ->]; [|left; reflexivity|right; split; [exact Hh|left; reflexivity]].
  unfold sh in *. unfold from_base, reach. destruct Dd as [->| ->]; unfold Rmax, Rmin; repeat destruct (Rle_dec _ _); lra.
Qed.

(** ---- existence of solutions *)
Definition cst_y (w a c1 c2 x : R) : R := Cw w (x - a) * c1 + Sw w (x - a) * c2.
Definition cst_d (w a c1 c2 x : R) : R := w * Sw w (x - a) * c1 + Cw w (x - a) * c2.
Lemma cst_y_derive : forall w a c1 c2 x, is_derive (cst_y w a c1 c2) x (cst_d w a c1 c2 x).
Proof.
  intros w a c1 c2 x. unfold cst_y, cst_d.
  assert (is_derive (fun x => x - a) x 1) as D1 by (auto_derive; [exact I|ring]).
  pose proof (is_derive_comp (Cw w) (fun x => x - a) x _ _ (Cw_derive w (x - a)) D1) as DC.
  pose proof (is_derive_comp (Sw w) (fun x => x - a) x _ _ (Sw_derive w (x - a)) D1) as DS.
  evar_last. { apply (is_derive_plus (fun x => Cw w (x - a) * c1) (fun x => Sw w (x - a) * c2)); apply (is_derive_scal_l (V := R_NormedModule)); [exact DC|exact DS]. }
  unfold plus, scal; simpl; unfold mult; simpl. ring.
Qed.
Lemma cst_d_derive : forall w a c1 c2 x, is_derive (cst_d w a c1 c2) x (w * cst_y w a c1 c2 x).
Proof.
  intros w a c1 c2 x. unfold cst_y, cst_d.
  assert (is_derive (fun x => x - a) x 1) as D1 by (auto_derive; [exact I|ring]).
  pose proof (is_derive_comp (Cw w) (fun x => x - a) x _ _ (Cw_derive w (x - a)) D1) as DC.
  pose proof (is_derive_comp (Sw w) (fun x => x - a) x _ _ (Sw_derive w (x - a)) D1) as DS.
  evar_last. { apply (is_derive_plus (fun x => w * Sw w (x - a) * c1) (fun x => Cw w (x - a) * c2)).
    - apply (is_derive_scal_l (V := R_NormedModule) (fun x => w * Sw w (x - a))). apply (is_derive_scal (fun x => Sw w (x - a))), DS.
    - apply (is_derive_scal_l (V := R_NormedModule)), DC. }
  unfold plus, scal; simpl; unfold mult; simpl. ring.
Qed.
Definition paste (p : R) (f g : R -> R) (x : R) : R := if Rle_dec x p then f x else g x.
Lemma paste_eq : forall p f g, f p = g p -> forall x, paste p f g x = f (Rmin x p) + g (Rmax x p) - f p.
Proof. intros p f g H x. unfold paste, Rmin, Rmax. destruct (Rle_dec x p); lra. Qed.
Lemma paste_continuous : forall p f g, f p = g p -> (forall x, continuous f x) -> (forall x, continuous g x) -> forall x, continuous (paste p f g) x.
Proof.
  intros p f g H Cf Cg x. apply (continuous_ext (fun x => f (Rmin x p) + g (Rmax x p) - f p)); [intro; symmetry; apply paste_eq, H|].
  assert (continuous (fun x => Rmin x p) x) as C1.
  { apply lipschitz_continuous. intros a b. unfold Rmin, Rabs. repeat destruct (Rle_dec _ _); repeat destruct (Rcase_abs _); lra. }
  assert (continuous (fun x => Rmax x p) x) as C2.
  { apply lipschitz_continuous. intros a b. unfold Rmax, Rabs. repeat destruct (Rle_dec _ _); repeat destruct (Rcase_abs _); lra. }
  apply (continuous_minus (fun x => f (Rmin x p) + g (Rmax x p)) (fun _ => f p)); [|apply continuous_const].
  apply (continuous_plus (fun x => f (Rmin x p)) (fun x => g (Rmax x p))); [apply (continuous_comp (fun x => Rmin x p) f)|apply (continuous_comp (fun x => Rmax x p) g)]; auto.
Qed.
Lemma paste_derive_l : forall p f g x d, x < p -> is_derive f x d -> is_derive (paste p f g) x d.
Proof.
  intros p f g x d Hx D. apply (is_derive_ext_loc f); [|exact D]. exists (mkposreal (p - x) ltac:(lra)). intros t Ht. apply Rabs_def2 in Ht. cbn in Ht.
  unfold paste, minus, plus, opp in *. simpl in *. destruct (Rle_dec t p); [reflexivity|lra].
Qed.
Lemma paste_derive_r : forall p f g x d, p < x -> is_derive g x d -> is_derive (paste p f g) x d.
Proof.
  intros p f g x d Hx D. apply (is_derive_ext_loc g); [|exact D]. exists (mkposreal (x - p) ltac:(lra)). intros t Ht. apply Rabs_def2 in Ht. cbn in Ht.
  unfold paste, minus, plus, opp in *. simpl in *. destruct (Rle_dec t p); [lra|reflexivity].
Qed.

Lemma cst_cont : forall w a c1 c2 x, continuous (cst_y w a c1 c2) x /\ continuous (cst_d w a c1 c2) x.
Proof.
  intros. split; [apply (ex_derive_continuous (cst_y w a c1 c2)); eexists; apply cst_y_derive|apply (ex_derive_continuous (cst_d w a c1 c2)); eexists; apply cst_d_derive].
Qed.
Lemma cst_at : forall w a c1 c2, cst_y w a c1 c2 a = c1 /\ cst_d w a c1 c2 a = c2.
Proof. intros. unfold cst_y, cst_d. rewrite Rminus_eq_0, Cw_0, Sw_0. split; ring. Qed.

(** solutions starting at the left end of a chain of sectors *)
Lemma solution_from_left : forall V E (l : list sec) lo hi, chain lo hi l -> (forall s, In s l -> smin s < smax s /\ forall x, smin s < x < smax s -> V x = v0 s) ->
  forall c1 c2, exists y y' : R -> R, (forall x, continuous y x /\ continuous y' x) /\ y lo = c1 /\ y' lo = c2 /\
    forall s x, In s l -> smin s < x < smax s -> is_derive y x (y' x) /\ is_derive y' x ((V x - E) * y x).
Proof.
  intros V E l. induction l as [|s l IH]; intros lo hi Ch H c1 c2; cbn in Ch.
  - exists (cst_y 0 lo c1 c2), (cst_d 0 lo c1 c2). split; [apply cst_cont|]. destruct (cst_at 0 lo c1 c2) as [-> ->]. split; [reflexivity|]. split; [reflexivity|]. intros s x [].
  - destruct Ch as [E0 Ch]. cbn in E0. destruct (H s ltac:(left; reflexivity)) as [Hs HV]. set (w := v0 s - E).
    set (f := cst_y w lo c1 c2). set (f' := cst_d w lo c1 c2).
    destruct (IH (smax s) hi Ch ltac:(intros t Ht; apply H; right; exact Ht) (f (smax s)) (f' (smax s))) as (g & g' & Cg & G1 & G2 & Dg).
    exists (paste (smax s) f g), (paste (smax s) f' g').
    split; [|split; [|split]].
    + intro x. split; apply paste_continuous; try (symmetry; assumption); intro t; try apply Cg; apply cst_cont.
    + unfold paste. destruct (Rle_dec lo (smax s)); [apply cst_at|lra].
    + unfold paste. destruct (Rle_dec lo (smax s)); [apply cst_at|lra].
    + intros t x [<-|Ht] Hx.
      * assert (paste (smax s) f' g' x = f' x) as -> by (unfold paste; destruct (Rle_dec x (smax s)); [reflexivity|lra]).
        assert (paste (smax s) f g x = f x) as -> by (unfold paste; destruct (Rle_dec x (smax s)); [reflexivity|lra]).
        split; apply paste_derive_l; try lra; [apply cst_y_derive|]. rewrite (HV x Hx). apply cst_d_derive.
      * assert (smax s < x) as Hsx. { destruct (chain_order l (smax s) hi Ch ltac:(intros q Hq; left; apply (H q); right; exact Hq)) as [_ CO]. destruct (CO t Ht). lra. }
        assert (paste (smax s) f' g' x = g' x) as -> by (unfold paste; destruct (Rle_dec x (smax s)); [lra|reflexivity]).
        assert (paste (smax s) f g x = g x) as -> by (unfold paste; destruct (Rle_dec x (smax s)); [lra|reflexivity]).
        destruct (Dg t x Ht Hx). split; apply paste_derive_r; assumption.
Qed.
Lemma solution_from_right : forall V E (l : list sec) lo hi, chain lo hi l -> (forall s, In s l -> smin s < smax s /\ forall x, smin s < x < smax s -> V x = v0 s) ->
  forall c1 c2, exists y y' : R -> R, (forall x, continuous y x /\ continuous y' x) /\ y hi = c1 /\ y' hi = c2 /\
    forall s x, In s l -> smin s < x < smax s -> is_derive y x (y' x) /\ is_derive y' x ((V x - E) * y x).
Proof.
  intros V E l. induction l as [|s l IH]; intros lo hi Ch H c1 c2; cbn in Ch.
  - exists (cst_y 0 hi c1 c2), (cst_d 0 hi c1 c2). split; [apply cst_cont|]. destruct (cst_at 0 hi c1 c2) as [-> ->]. split; [reflexivity|]. split; [reflexivity|]. intros s x [].
  - destruct Ch as [E0 Ch]. cbn in E0. destruct (H s ltac:(left; reflexivity)) as [Hs HV]. set (w := v0 s - E).
    assert (forall t, In t l -> smin t < smax t /\ forall x, smin t < x < smax t -> V x = v0 t) as Hl by (intros t Ht; apply H; right; exact Ht).
    destruct (IH (smax s) hi Ch Hl c1 c2) as (g & g' & Cg & G1 & G2 & Dg).
    set (f := cst_y w (smax s) (g (smax s)) (g' (smax s))). set (f' := cst_d w (smax s) (g (smax s)) (g' (smax s))).
    destruct (cst_at w (smax s) (g (smax s)) (g' (smax s))) as [P1 P2]. fold f in P1. fold f' in P2.
    destruct (chain_order l (smax s) hi Ch ltac:(intros q Hq; left; apply (Hl q Hq))) as [CO1 CO].
    exists (paste (smax s) f g), (paste (smax s) f' g'). split; [|split; [|split]].
    + intro x. split; apply paste_continuous; try assumption; intro t; try apply Cg; apply cst_cont.
    + rewrite paste_eq by exact P1. rewrite Rmin_right, Rmax_left by lra. rewrite <- G1. lra.
    + rewrite paste_eq by exact P2. rewrite Rmin_right, Rmax_left by lra. rewrite <- G2. lra.
    + intros t x [<-|Ht] Hx.
      * assert (paste (smax s) f' g' x = f' x) as -> by (unfold paste; destruct (Rle_dec x (smax s)); [reflexivity|lra]).
        assert (paste (smax s) f g x = f x) as -> by (unfold paste; destruct (Rle_dec x (smax s)); [reflexivity|lra]).
        split; apply paste_derive_l; try lra; [apply cst_y_derive|]. rewrite (HV x Hx). apply cst_d_derive.
      * assert (smax s < x) as Hsx by (destruct (CO t Ht); lra).
        assert (paste (smax s) f' g' x = g' x) as -> by (unfold paste; destruct (Rle_dec x (smax s)); [lra|reflexivity]).
        assert (paste (smax s) f g x = g x) as -> by (unfold paste; destruct (Rle_dec x (smax s)); [lra|reflexivity]).
        destruct (Dg t x Ht Hx). split; apply paste_derive_r; assumption.
Qed.

(** sector ends are outside the other sectors *)
Lemma chain_ends : forall (l : list sec) lo hi, chain lo hi l -> (forall s, In s l -> smin s < smax s) ->
  forall s t, In s l -> In t l -> smax s <= smin t \/ smax t <= smax s.
Proof.
  induction l as [|a l IH]; intros lo hi Ch H s t Hs Ht; [destruct Hs|]. cbn in Ch. destruct Ch as [E Ch].
  destruct (chain_order l (smax a) hi Ch ltac:(intros q Hq; left; apply (H q); right; exact Hq)) as [_ CO].
  destruct Hs as [<-|Hs], Ht as [<-|Ht].
  - right. lra.
  - left. apply CO, Ht.
  - right. destruct (CO s Hs). pose proof (H s ltac:(right; exact Hs)). lra.
  - apply (IH (smax a) hi Ch); auto. intros q Hq. apply H. right. exact Hq.
Qed.
Lemma bounded_const : forall V (l : list sec), (forall s, In s l -> forall x, smin s < x < smax s -> V x = v0 s) ->
  exists M, 0 <= M /\ forall s x, In s l -> smin s < x < smax s -> Rabs (V x) <= M.
Proof.
  intros V l. induction l as [|a l IH]; intro H; [exists 0; split; [lra|intros s x []]|].
  destruct IH as (M & HM & B); [intros s Hs; apply H; right; exact Hs|]. exists (M + Rabs (v0 a)). pose proof (Rabs_pos (v0 a)). split; [lra|].
  intros s x [<-|Hs] Hx; [rewrite (H a ltac:(left; reflexivity) x Hx); lra|]. specialize (B s x Hs Hx). lra.
Qed.
