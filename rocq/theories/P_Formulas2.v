(** The tables: instantiation of the reflective checks. *)
From Coq Require Import String QArith Qreals Reals ZArith Lra Lia.
From Coquelicot Require Import Coquelicot.
From Coq Require Import List Bool.
From Verif Require Import Base S_Eta P_Eta S_Poly S_Legendre S_Formulas M_TableData M_Core M_Formulas P_Poly P_Terms P_Terms2 P_Formulas.
Import ListNotations.
Open Scope R_scope.

(** ---- the potential *)
Fixpoint leg_terms_from (k r : nat) (p : list Q) : list term :=
  match p with [] => [] | c :: p' => Te (Qnum c) r (k - r) [k] :: leg_terms_from k (S r) p' end.
Definition leg_terms (k : nat) : list term := leg_terms_from k 0 (shifted_leg k).
Definition leg_list : list (list term) := Eval vm_compute in map leg_terms (seq 0 16).
Definition legD (k : nat) : list term := nth k leg_list [].
Lemma leg_list_ok : leg_list = map leg_terms (seq 0 16).
Proof. vm_cast_no_check (eq_refl leg_list). Qed.
Lemma legD_ok : forall k, (k < 16)%nat -> legD k = leg_terms k.
Proof.
  intros k Hk. unfold legD. rewrite leg_list_ok. rewrite (nth_indep _ [] (leg_terms 0)) by (rewrite map_length, seq_length; exact Hk).
  rewrite map_nth, seq_nth by exact Hk. reflexivity.
Qed.
Definition int_coeffs (k : nat) : bool :=
  forallb (fun c => Pos.eqb (Qden c) 1) (shifted_leg k) && (List.length (shifted_leg k) =? S k)%nat.
Lemma int_coeffs_ok : forallb int_coeffs (seq 0 16) = true.
Proof. vm_cast_no_check (eq_refl true). Qed.

Lemma leg_terms_from_val : forall v h x k p r, h <> 0 ->
  forallb (fun c => Pos.eqb (Qden c) 1) p = true -> (r + List.length p <= S k)%nat ->
  leval v h x (leg_terms_from k r p) = v k * h ^ k * (x / h) ^ r * polyval (map Q2R p) (x / h).
Proof.
  intros v h x k p. induction p as [|c p IH]; intros r Hh Hp Hl; cbn [leg_terms_from map]; [rewrite polyval_nil; simpl; ring|]. rewrite polyval_cons.
  cbn [forallb] in Hp. apply andb_prop in Hp. destruct Hp as [Hc Hp]. apply Pos.eqb_eq in Hc. cbn [List.length] in Hl.
  cbn [leval fold_right teval vprod]. fold (leval v h x (leg_terms_from k (S r) p)). rewrite IH by (auto; lia).
  assert (Q2R c = IZR (Qnum c)) as -> by (unfold Q2R; rewrite Hc; field).
  assert (h ^ k = h ^ (k - r) * h ^ r) as E by (rewrite <- pow_add; f_equal; lia).
  rewrite E. cbn [pow]. unfold Rdiv. rewrite Rpow_mult_distr, pow_inv.
  assert (h ^ r <> 0) by (apply pow_nonzero, Hh). field. auto.
Qed.

Lemma legD_val : forall v h x k, h <> 0 -> (k < 16)%nat -> leval v h x (legD k) = v k * h ^ k * legendre_fun k (x / h).
Proof.
  intros v h x k Hh Hk. rewrite legD_ok by exact Hk.
  assert (int_coeffs k = true) as Hi.
  { pose proof int_coeffs_ok as H. rewrite forallb_forall in H. apply H. apply in_seq. lia. }
  unfold int_coeffs in Hi. apply andb_prop in Hi. destruct Hi as [Hi Hl]. apply Nat.eqb_eq in Hl.
  unfold leg_terms. rewrite leg_terms_from_val by (auto; lia). unfold legendre_fun. simpl pow. ring.
Qed.
Lemma legD_deg : forall k u, (k < 16)%nat -> In u (legD k) -> (k <= tdeg u)%nat.
Proof.
  intros k u Hk Hu. rewrite legD_ok in Hu by lia. unfold leg_terms in Hu.
  assert (forall p r, In u (leg_terms_from k r p) -> (k <= tdeg u)%nat) as H.
  { induction p as [|c p IH]; intros r Hin; cbn [leg_terms_from] in Hin; [destruct Hin|].
    destruct Hin as [<-|Hin]; [cbn [tdeg]; lia|eapply IH; eauto]. }
  eapply H; eauto.
Qed.
Lemma fold_rsum : forall (g : nat -> R) n s, fold_right (fun k acc => g k + acc) 0 (seq s n) = rsum n (fun k => g (s + k)%nat).
Proof.
  induction n; intro s; [reflexivity|]. cbn [seq fold_right]. rewrite IHn, rsum_S, Nat.add_0_r. f_equal.
  apply rsum_ext. intros. f_equal. lia.
Qed.
Lemma Dsum_potential : forall N v h x, (N <= 15)%nat -> h <> 0 ->
  v 0%nat + Dsum v h legD (seq 1 N) x = sector_potential N v h x.
Proof.
  intros N v h x HN Hh. unfold sector_potential, Dsum. rewrite rsum_S, fold_rsum.
  match goal with |- ?a + ?b = ?c + ?d => cut (a = c); [intro Ea; cut (b = d); [intro Eb; exact (f_equal2 Rplus Ea Eb)|]|] end; [clear Ea|].
  - apply rsum_ext. intros k Hk. rewrite legD_val by (auto; lia). reflexivity.
  - unfold legendre_fun. change (shifted_leg 0) with [1%Q]. cbn [map pow]. rewrite polyval_cons, polyval_nil. unfold Q2R. simpl. field. exact Hh.
Qed.

(** ---- the tables *)
Definition dens : ptr := Eval vm_compute in fold_left reg_cols tdelta_table (reg_cols PL th_table).
Lemma dens_tdelta : forallb (dens_ok_cols dens) tdelta_table = true.
Proof. vm_cast_no_check (eq_refl true). Qed.
Lemma dens_th : dens_ok_cols dens th_table = true.
Proof. vm_cast_no_check (eq_refl true). Qed.
Lemma tdelta_shape : forallb (fun c => (List.length c =? 17)%nat) tdelta_table = true /\ List.length tdelta_table = 9%nat.
Proof. split; [vm_cast_no_check (eq_refl true)|reflexivity]. Qed.

Definition acol (q : nat) : list (list term) := map (flat_cols dens q 0) tdelta_table.
Lemma acol_length : forall q, List.length (acol q) = 9%nat.
Proof. intro q. unfold acol. rewrite map_length. apply tdelta_shape. Qed.

Lemma acol_val : forall v h q i x, (i < 9)%nat ->
  leval v h x (nth i (acol q) []) = IZR DD * horner (tcoeff v h q i) x HMAX_delta.
Proof.
  intros v h q i x Hi. unfold acol.
  change (@nil term) with (flat_cols dens q 0 []). rewrite map_nth.
  assert (dens_ok_cols dens (nth i tdelta_table []) = true) as Hd by (apply nth_ok; [reflexivity|apply dens_tdelta]).
  rewrite flat_cols_val by exact Hd. rewrite pow_O, Rmult_1_l. f_equal.
  rewrite horner_val by (unfold HMAX_delta; lia).
  rewrite (fold_horner (fun c => entry_val v h (nth q c []))).
  assert (List.length (nth i tdelta_table []) = 17%nat) as ->.
  { destruct tdelta_shape as [Hs Hl]. rewrite forallb_forall in Hs. apply Nat.eqb_eq, Hs, nth_In. rewrite Hl. exact Hi. }
  reflexivity.
Qed.

(** the four checks *)
Lemma resid_check0 : resid_ok 15 legD (seq 1 13) 0 [] (acol 0) = true.
Proof. vm_cast_no_check (eq_refl true). Qed.
Lemma resid_check1 : resid_ok 15 legD (seq 1 13) 0 [] (acol 1) = true.
Proof. vm_cast_no_check (eq_refl true). Qed.
Lemma der_check0 : der_ok 16 0 [] (acol 0) (acol 2) = true.
Proof. vm_cast_no_check (eq_refl true). Qed.
Lemma der_check1 : der_ok 16 0 [] (acol 1) (acol 3) = true.
Proof. vm_cast_no_check (eq_refl true). Qed.
Lemma first_coeff : hd [] (acol 0) = [Te DD 0 0 []] /\ hd [] (acol 1) = [].
Proof. split; vm_compute; reflexivity. Qed.
