(** The coupled tables: instantiation. *)
From Coq Require Import String QArith Qreals Reals ZArith Lra Lia.
From Coquelicot Require Import Coquelicot.
From Coq Require Import List Bool.
From Verif Require Import Base S_Eta P_Eta S_Poly S_Legendre S_Formulas S_Coupled M_Sectors M_TableData M_Core M_Formulas M_CoupledData M_Coupled
  P_Poly P_Terms P_Terms2 P_Formulas P_Formulas2 P_Formulas3 P_Formulas4 P_WTerms P_Coupled.
Import ListNotations.
Open Scope R_scope.

Lemma rsum_zero : forall n, rsum n (fun _ => 0) = 0.
Proof. induction n; cbn [rsum]; [reflexivity|rewrite IHn; ring]. Qed.
Lemma rsum_only : forall n k f, (k < n)%nat -> (forall j, (j < n)%nat -> j <> k -> f j = 0) -> rsum n f = f k.
Proof.
  induction n as [|n IH]; intros k f Hk Hf; [lia|]. cbn [rsum]. destruct (Nat.eq_dec k n) as [->|Hne].
  - rewrite (rsum_ext n f (fun _ => 0)) by (intros; apply Hf; lia). rewrite rsum_zero. ring.
  - rewrite (IH k f) by (try lia; intros; apply Hf; lia). rewrite (Hf n) by lia. ring.
Qed.
Lemma rsum_swap : forall n m f, rsum n (fun i => rsum m (fun j => f i j)) = rsum m (fun j => rsum n (fun i => f i j)).
Proof.
  induction n as [|n IH]; intros m f; cbn [rsum]; [rewrite rsum_zero; reflexivity|]. rewrite IH, <- rsum_plus. reflexivity.
Qed.

Lemma wprod_word : forall n vs w r c, wprod n vs w r c = word_val n vs w r c.
Proof.
  intros n vs w. induction w as [|k w IH]; intros r c; [reflexivity|]. cbn [wprod fold_right word_val]. unfold mmult.
  apply rsum_ext. intros j _. f_equal. apply IH.
Qed.
Lemma word_post : forall n vs w r c, (r < n)%nat -> (c < n)%nat -> diagonal n (vs 0%nat) -> word_val n vs (w ++ [0%nat]) r c = word_val n vs w r c * vs 0%nat c c.
Proof.
  intros n vs w. induction w as [|k w IH]; intros r c Hr Hc Hd; cbn [app word_val].
  - rewrite (rsum_only n c) by (auto; intros j Hj Hne; rewrite (proj2 (Nat.eqb_neq j c)) by exact Hne; ring).
    rewrite Nat.eqb_refl. destruct (Nat.eqb_spec r c) as [->|Hne]; [ring|]. rewrite (Hd r c) by auto. ring.
  - rewrite <- (Rmult_comm (vs 0%nat c c)), <- rsum_scal. apply rsum_ext. intros j Hj. rewrite IH by auto. ring.
Qed.

(** ---- the tables as integer terms *)
Definition DW : Z := 10 ^ 16.
Lemma DW_val : IZR DW = 10 ^ 16.
Proof. rewrite (pow_IZR 10 16). reflexivity. Qed.
Lemma DW_nz : IZR DW <> 0. Proof. apply not_0_IZR. discriminate. Qed.
Definition wt (j p : nat) (t : wterm) : term := let (m, e, w) := t in Te (m * 10 ^ (16 - Z.of_nat e)) j p w.
Definition wt_ok (t : wterm) : bool := let (_, e, w) := t in (e <=? 16)%nat.
Definition wflat_entry (j : nat) (e : wentry) : list term := flat_map (fun r => map (wt j (fst r)) (snd r)) e.
Definition wentry_ok (e : wentry) : bool := forallb (fun r => forallb wt_ok (snd r)) e.
Fixpoint wflat_cols (q j : nat) (cols : list (list wentry)) : list term :=
  match cols with [] => [] | c :: r => wflat_entry j (nth q c []) ++ wflat_cols q (S j) r end.
Definition wcol (q : nat) : list (list term) := map (wflat_cols q 0) wdelta_table.
Definition wcolh (q : nat) : list (list term) := map (fun c => wflat_entry 0 (nth q c [])) wh_table.
Lemma wtabs_ok : forallb (forallb (forallb wentry_ok)) wdelta_table = true /\ forallb (forallb wentry_ok) wh_table = true.
Proof. split; vm_cast_no_check (eq_refl true). Qed.
Lemma wdelta_shape : forallb (fun c => (List.length c =? 10)%nat) wdelta_table = true /\ List.length wdelta_table = 5%nat.
Proof. split; reflexivity. Qed.
Lemma wh_shape : List.length wh_table = 6%nat. Proof. reflexivity. Qed.
Lemma wcol_length : forall q, List.length (wcol q) = 5%nat.
Proof. intro. unfold wcol. rewrite map_length. apply wdelta_shape. Qed.
Lemma wcolh_length : forall q, List.length (wcolh q) = 6%nat.
Proof. intro. unfold wcolh. rewrite map_length. apply wh_shape. Qed.

Section Val.
Variables (n : nat) (vs : nat -> mat) (h : R) (r c : nat).
Let W (w : list nat) : R := word_val n vs w r c.
Lemma wt_val : forall x j p t, wt_ok t = true -> weval W h x (wt j p t) = IZR DW * (x ^ j * h ^ p * wterm_val n vs t r c).
Proof.
  intros x j p [m e w] H. cbn [wt wt_ok weval wterm_val] in *. apply Nat.leb_le in H. unfold mscale. rewrite wprod_word. unfold W.
  rewrite mult_IZR. assert (IZR (10 ^ (16 - Z.of_nat e)) * 10 ^ e = IZR DW) as E.
  { rewrite DW_val. replace (16 - Z.of_nat e)%Z with (Z.of_nat (16 - e)) by lia. rewrite <- pow_IZR, <- pow_add. f_equal. lia. }
  rewrite <- E. field. apply pow_nonzero. lra.
Qed.
Lemma wrow_terms : forall x j p l, forallb wt_ok l = true ->
  wlev W h x (map (wt j p) l) = IZR DW * (x ^ j * h ^ p * wrow_val n vs l r c).
Proof.
  intros x j p l. induction l as [|t l IH]; intro H; [unfold wrow_val, mzero; simpl; ring|]. cbn [forallb] in H. apply andb_prop in H. destruct H as [H1 H2].
  cbn [map]. rewrite wlev_cons, wt_val, IH by assumption. unfold wrow_val at 2. cbn [fold_right]. unfold madd at 1. fold (wrow_val n vs l). ring.
Qed.
Lemma wentry_terms : forall x j e, wentry_ok e = true -> wlev W h x (wflat_entry j e) = IZR DW * (x ^ j * wentry_val n vs h e r c).
Proof.
  intros x j e. induction e as [|[p l] e IH]; intro H; [unfold wentry_val, mzero; simpl; ring|]. cbn [wentry_ok forallb snd] in H. apply andb_prop in H. destruct H as [H1 H2].
  cbn [wflat_entry flat_map fst snd]. rewrite wlev_app, wrow_terms by exact H1. fold (wflat_entry j e). rewrite IH by exact H2.
  unfold wentry_val at 2. cbn [fold_right fst snd]. unfold madd at 1, mscale at 1. fold (wentry_val n vs h e). ring.
Qed.
Lemma wcols_terms : forall x q cols j, forallb (forallb wentry_ok) cols = true ->
  wlev W h x (wflat_cols q j cols) = IZR DW * rsum (List.length cols) (fun i => x ^ (j + i) * wentry_val n vs h (nth q (nth i cols []) []) r c).
Proof.
  intros x q cols. induction cols as [|e cols IH]; intros j H; [simpl; ring|]. cbn [forallb] in H. apply andb_prop in H. destruct H as [H1 H2].
  cbn [wflat_cols List.length]. rewrite wlev_app, rsum_S, IH by exact H2. rewrite wentry_terms.
  - cbn [nth]. rewrite Nat.add_0_r, Rmult_plus_distr_l. f_equal. f_equal. apply rsum_ext. intros i Hi. f_equal. f_equal. lia.
  - rewrite forallb_forall in H1. destruct (Nat.lt_ge_cases q (List.length e)) as [Hq|Hq]; [apply H1, nth_In, Hq|rewrite nth_overflow by exact Hq; reflexivity].
Qed.
Lemma mhorner_val : forall f x m, (1 <= m)%nat -> mhorner f x m r c = rsum m (fun j => x ^ j * f j r c).
Proof.
  intros f x m Hm. unfold mhorner.
  assert (forall i A, mhorner_loop f x i A r c = rsum i (fun j => x ^ j * f j r c) + x ^ i * A r c) as H.
  { induction i; intro A; cbn [mhorner_loop rsum pow]; [ring|]. rewrite IHi. unfold madd, mscale. ring. }
  rewrite H. destruct m as [|m]; [lia|]. cbn [rsum]. replace (S m - 1)%nat with m by lia. ring.
Qed.
Lemma wcol_val : forall q i x, (i < 5)%nat ->
  wlev W h x (nth i (wcol q) []) = IZR DW * mhorner (ctcoeff n vs h q i) x CHMAX_delta r c.
Proof.
  intros q i x Hi. unfold wcol. change (@nil term) with (wflat_cols q 0 []). rewrite map_nth.
  destruct wtabs_ok as [Ht _]. destruct wdelta_shape as [Hs Hl].
  assert (In (nth i wdelta_table []) wdelta_table) as Hin by (apply nth_In; rewrite Hl; exact Hi).
  rewrite forallb_forall in Ht, Hs. rewrite wcols_terms by (apply Ht, Hin).
  specialize (Hs _ Hin). apply Nat.eqb_eq in Hs. rewrite Hs. rewrite mhorner_val by (unfold CHMAX_delta; lia). reflexivity.
Qed.
Lemma wcolh_val : forall q i x, (i < 6)%nat -> wlev W h x (nth i (wcolh q) []) = IZR DW * ctcoeff_h n vs h q i r c.
Proof.
  intros q i x Hi. unfold wcolh. assert (wflat_entry 0 (nth q [] []) = []) as E0 by (destruct q; reflexivity).
  rewrite <- E0. rewrite (map_nth (fun c => wflat_entry 0 (nth q c []))).
  destruct wtabs_ok as [_ Ht]. assert (In (nth i wh_table []) wh_table) as Hin by (apply nth_In; rewrite wh_shape; exact Hi).
  rewrite forallb_forall in Ht. specialize (Ht _ Hin). rewrite forallb_forall in Ht.
  rewrite wentry_terms; [rewrite pow_O, Rmult_1_l; unfold ctcoeff_h; reflexivity|].
  destruct (Nat.lt_ge_cases q (List.length (nth i wh_table []))) as [Hq|Hq]; [apply Ht, nth_In, Hq|rewrite nth_overflow by exact Hq; reflexivity].
Qed.
End Val.

(** ---- the blocks *)
Lemma mmult_diag : forall n A d r c, (c < n)%nat -> mmult n A (mdiag d) r c = A r c * d c.
Proof.
  intros n A d r c Hc. unfold mmult, mdiag. rewrite (rsum_only n c) by (auto; intros j Hj Hne; rewrite (proj2 (Nat.eqb_neq j c)) by exact Hne; ring).
  rewrite Nat.eqb_refl. reflexivity.
Qed.
Lemma macc_val : forall n m base co d r c, (c < n)%nat -> macc n m base co d r c = base r c + rsum m (fun i => co i r c * d i c).
Proof.
  intros n m base co d r c Hc. unfold macc.
  assert (forall s m base, fold_left (fun A i => madd A (mmult n (co i) (mdiag (d i)))) (seq s m) base r c = base r c + rsum m (fun i => co (s + i)%nat r c * d (s + i)%nat c)) as H.
  { intros s k. revert s. induction k; intros s b; cbn [seq fold_left]; [simpl; ring|].
    rewrite IHk, rsum_S, Nat.add_0_r. unfold madd. rewrite mmult_diag by exact Hc. rewrite Rplus_assoc. do 2 f_equal. apply rsum_ext. intros i _. replace (S s + i)%nat with (s + S i)%nat by lia. reflexivity. }
  apply (H 0%nat).
Qed.

Section Blocks.
Variables (n : nat) (s : csector) (E : R) (r c : nat).
Hypothesis Hr : (r < n)%nat.
Hypothesis Hc : (c < n)%nat.
Notation vs := (cs_vs s). Notation h := (cs_h s).
Notation w := (cs_vs s 0%nat c c - E).
Let W (l : list nat) : R := word_val n vs l r c.

Definition cbase (q : nat) (x : R) : R := if ((q =? 2) && (r =? c))%nat then w * x * eta 1 (w * (x * x)) else 0.
Lemma cdelta_val : forall q x, cb (cblocks_delta eta_exact n s E x) q r c = cbase q x + / IZR DW * wy W h w 0 (wcol q) x.
Proof.
  intros q x. rewrite wy_rsum, wcol_length. unfold cblocks_delta, blocksVEd. cbn [cb]. rewrite macc_val by exact Hc.
  assert (forall i z, (i < 5)%nat -> z = w * (x * x) -> nth i (eta_exact CETA_delta z) 0 = eta i (w * (x * x))) as He.
  { intros i z Hi ->. apply eta_exact_nth. unfold CETA_delta. lia. }
  f_equal.
  - unfold cbase. destruct (Nat.eqb_spec q 2) as [->|Hq]; cbn [andb].
    + unfold mdiag. destruct (Nat.eqb_spec r c) as [->|]; [|reflexivity]. unfold VEd_of. rewrite He by (try lia; ring). ring.
    + reflexivity.
  - rewrite <- rsum_scal. apply rsum_ext. intros i Hi. unfold W. rewrite wcol_val by exact Hi. unfold VEd_of. rewrite He by (try exact Hi; ring).
    cbn [Nat.add]. field. apply DW_nz.
Qed.
Lemma cfull_val : forall q, cb (cblocks_full eta_exact n s E) q r c = cbase q h + / IZR DW * wy W h w 0 (wcolh q) h.
Proof.
  intros q. rewrite wy_rsum, wcolh_length. unfold cblocks_full, blocksVEd. cbn [cb]. rewrite macc_val by exact Hc.
  assert (forall i z, (i < 6)%nat -> z = w * (h * h) -> nth i (eta_exact CETA_h z) 0 = eta i (w * (h * h))) as He.
  { intros i z Hi ->. apply eta_exact_nth. unfold CETA_h. lia. }
  f_equal.
  - unfold cbase. destruct (Nat.eqb_spec q 2) as [->|Hq]; cbn [andb].
    + unfold mdiag. destruct (Nat.eqb_spec r c) as [->|]; [|reflexivity]. unfold VEd_of. rewrite He by (try lia; ring). ring.
    + reflexivity.
  - rewrite <- rsum_scal. apply rsum_ext. intros i Hi. unfold W. rewrite wcolh_val by exact Hi. unfold VEd_of. rewrite He by (try exact Hi; ring).
    cbn [Nat.add]. field. apply DW_nz.
Qed.
End Blocks.

(** ---- left multiplication by the potential *)
Definition wmul (u t : term) : term := let (d, a', b', l) := u in let (c, a, b, m) := t in Te (c * d) (a + a') (b + b') (l ++ m).
Definition wleg (k : nat) (a : list term) : list term := flat_map (fun u => map (wmul u) a) (legD k).
Definition wpost (t : term) : term := let (c, a, b, l) := t in Te (- c) a b (l ++ [0%nat]).
Definition wpre (t : term) : term := let (c, a, b, l) := t in Te c a b (0%nat :: l).
Definition wX (N : nat) (a : list term) : list term := flat_map (fun k => wleg k a) (seq 1 N) ++ map wpre a ++ map wpost a.
Definition leg_word (k : nat) (t : term) : bool := let (_, _, _, l) := t in match l with [j] => Nat.eqb j k | _ => false end.
Lemma leg_words : forallb (fun k => forallb (leg_word k) (legD k)) (seq 0 16) = true.
Proof. vm_cast_no_check (eq_refl true). Qed.

Section Left.
Variables (n : nat) (vs : nat -> mat) (h : R) (c : nat).
Hypothesis Hc : (c < n)%nat.
Hypothesis Hd : diagonal n (vs 0%nat).
Notation lev r := (wlev (fun w => word_val n vs w r c) h).
Lemma wlev_left : forall r x u k a, leg_word k u = true ->
  lev r x (map (wmul u) a) = teval (fun _ => 1) h x u * rsum n (fun j => vs k r j * lev j x a).
Proof.
  intros r x [d a' b' l] k a Hu. cbn [leg_word] in Hu. destruct l as [|k' [|? ?]]; try discriminate. apply Nat.eqb_eq in Hu. subst k'.
  induction a as [|[e a1 b1 m] a IH].
  - cbn [map]. rewrite (rsum_ext n _ (fun _ => 0)) by (intros; simpl; ring). rewrite rsum_zero. simpl. ring.
  - cbn [map]. rewrite wlev_cons, IH. cbn [wmul weval teval vprod app word_val]. rewrite mult_IZR, !pow_add.
    rewrite (rsum_ext n (fun j => vs k r j * lev j x (Te e a1 b1 m :: a)) (fun j => IZR e * x ^ a1 * h ^ b1 * (vs k r j * word_val n vs m j c) + vs k r j * lev j x a))
      by (intros; rewrite wlev_cons; cbn [weval]; ring).
    rewrite rsum_plus, (rsum_scal n (IZR e * x ^ a1 * h ^ b1)). ring.
Qed.
Lemma wleg_val : forall r x k a, (k < 16)%nat -> h <> 0 ->
  lev r x (wleg k a) = h ^ k * legendre_fun k (x / h) * rsum n (fun j => vs k r j * lev j x a).
Proof.
  intros r x k a Hk Hh. pose proof (legD_val (fun _ => 1) h x k Hh Hk) as E. rewrite Rmult_1_l in E. rewrite <- E.
  assert (forallb (leg_word k) (legD k) = true) as Hw by (pose proof leg_words as H; rewrite forallb_forall in H; apply H, in_seq; lia).
  unfold wleg. clear E. revert Hw. induction (legD k) as [|u L IH]; intro Hw; [simpl; ring|]. cbn [forallb] in Hw. apply andb_prop in Hw. destruct Hw as [H1 H2].
  cbn [flat_map]. rewrite wlev_app, (IH H2), (wlev_left r x u k a H1). cbn [leval fold_right]. fold (leval (fun _ => 1) h x L). ring.
Qed.
Lemma wpre_val : forall r x a, lev r x (map wpre a) = rsum n (fun j => vs 0%nat r j * lev j x a).
Proof.
  intros r x a. induction a as [|[e a1 b1 m] a IH].
  - cbn [map]. rewrite (rsum_ext n _ (fun _ => 0)) by (intros; simpl; ring). rewrite rsum_zero. reflexivity.
  - cbn [map]. rewrite wlev_cons, IH. cbn [wpre weval word_val].
    rewrite (rsum_ext n (fun j => vs 0%nat r j * lev j x (Te e a1 b1 m :: a)) (fun j => IZR e * x ^ a1 * h ^ b1 * (vs 0%nat r j * word_val n vs m j c) + vs 0%nat r j * lev j x a))
      by (intros; rewrite wlev_cons; cbn [weval]; ring).
    rewrite rsum_plus, (rsum_scal n (IZR e * x ^ a1 * h ^ b1)). ring.
Qed.
Lemma wpost_val : forall r x a, (r < n)%nat -> lev r x (map wpost a) = - (vs 0%nat c c * lev r x a).
Proof.
  intros r x a Hr. induction a as [|[e a1 b1 m] a IH]; [simpl; ring|]. cbn [map]. rewrite !wlev_cons, IH. cbn [wpost weval].
  rewrite word_post by auto. rewrite opp_IZR. ring.
Qed.
Lemma wX_val : forall N r x a, (N <= 15)%nat -> h <> 0 -> (r < n)%nat ->
  lev r x (wX N a) = rsum n (fun j => mat_potential N vs h x r j * lev j x a) - vs 0%nat c c * lev r x a.
Proof.
  intros N r x a HN Hh Hr. unfold wX. rewrite !wlev_app, wpre_val, wpost_val by exact Hr.
  assert (lev r x (flat_map (fun k => wleg k a) (seq 1 N)) = rsum n (fun j => rsum N (fun k => vs (S k) r j * h ^ S k * legendre_fun (S k) (x / h)) * lev j x a)) as E1.
  { assert (forall N s, (s + N <= 16)%nat -> lev r x (flat_map (fun k => wleg k a) (seq s N)) = rsum n (fun j => rsum N (fun k => vs (s + k)%nat r j * h ^ (s + k) * legendre_fun (s + k) (x / h)) * lev j x a)) as H.
    { clear N HN. induction N as [|N IH]; intros s HN.
      - cbn [seq flat_map rsum]. rewrite (rsum_ext n _ (fun _ => 0)) by (intros; ring). rewrite rsum_zero. reflexivity.
      - cbn [seq flat_map]. rewrite wlev_app, IH by lia. rewrite wleg_val by (auto; lia).
        rewrite <- rsum_scal, <- rsum_plus. apply rsum_ext. intros j Hj. rewrite rsum_S, Nat.add_0_r.
        rewrite (rsum_ext N (fun k => vs (s + S k)%nat r j * h ^ (s + S k) * legendre_fun (s + S k) (x / h)) (fun k => vs (S s + k)%nat r j * h ^ (S s + k) * legendre_fun (S s + k) (x / h)))
          by (intros k Hk; replace (s + S k)%nat with (S s + k)%nat by lia; reflexivity). 
        generalize (legendre_fun s (x / h)). generalize (rsum N (fun k => vs (S s + k)%nat r j * h ^ (S s + k) * legendre_fun (S s + k) (x / h))). intros. ring. }
    rewrite H by lia. reflexivity. }
  rewrite E1. rewrite <- Rplus_assoc, <- rsum_plus. unfold Rminus. f_equal. apply rsum_ext. intros j Hj. unfold mat_potential. rewrite rsum_S.
  assert (legendre_fun 0 (x / h) = 1) as L0.
  { unfold legendre_fun. change (shifted_leg 0) with [1%Q]. cbn [map pow]. rewrite polyval_cons, polyval_nil. unfold Q2R. simpl. lra. }
  rewrite L0. generalize (rsum N (fun k => vs (S k) r j * h ^ S k * legendre_fun (S k) (x / h))). intro y. simpl (h ^ 0). ring.
Qed.
End Left.
