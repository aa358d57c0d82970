(** C88: moving the domain by a and raising the potential by c moves the mesh by a and the energies by c, and changes nothing else. *)
From Coq Require Import String ZArith QArith Reals List Bool Lia Lra.
From Coq Require Import Qreals.
From Verif Require Import Base M_Sectors M_Core M_TableData M_Eta M_Formulas M_LegendreData M_Legendre S_Poly P_Legendre T_Legendre.
Import ListNotations.
Open Scope R_scope.

(** the sector of the moved problem: the ends are moved, the mean of the potential (coefficient 0) is raised *)
Definition raise (c : R) (v : list R) : list R := (nth 0 v 0 + c) :: tl v.
Definition move (a c : R) (s : sec) : sec := mkSector (smin s + a) (smax s + a) (sdir s) (raise c (spay s)).

Lemma ltb_move a x y : Rltb (x + a) (y + a) = Rltb x y.
Proof. unfold Rltb. destruct (Rlt_dec x y), (Rlt_dec (x + a) (y + a)); try reflexivity; exfalso; lra. Qed.
Lemma leb_move a x y : Rleb (x + a) (y + a) = Rleb x y.
Proof. unfold Rleb. destruct (Rle_dec x y), (Rle_dec (x + a) (y + a)); try reflexivity; exfalso; lra. Qed.
Lemma eqb_move a x y : Reqb (x + a) (y + a) = Reqb x y.
Proof. unfold Reqb. destruct (Req_EM_T x y), (Req_EM_T (x + a) (y + a)); try reflexivity; exfalso; lra. Qed.
Lemma sub_move a x y : x + a - (y + a) = x - y.
Proof. ring. Qed.
Lemma sh_move a c s : sh (move a c s) = sh s.
Proof. unfold sh, move. cbn [smin smax]. apply sub_move. Qed.
Lemma v0_move a c s : v0 (move a c s) = v0 s + c.
Proof. reflexivity. Qed.
Lemma vk_move a c s k : nth (S k) (spay (move a c s)) 0 = nth (S k) (spay s) 0.
Proof. unfold move, raise. cbn [spay nth]. destruct (spay s); [destruct k; reflexivity|reflexivity]. Qed.
Lemma scaling_move c vm E : scaling (vm + c) (E + c) = scaling vm E.
Proof. unfold scaling. rewrite sub_move. reflexivity. Qed.

(** the formulas read the coefficients 1 .. 15 only; the mean enters through vs[0] - E *)
Definition no0_entry (e : hentry) : bool := forallb (forallb (fun t : tterm => let (_, _, l) := t in forallb (fun k => negb (k =? 0)%nat) l)) e.
Lemma no0_delta : forallb (forallb (forallb no0_entry)) tdelta_table = true.
Proof. vm_compute. reflexivity. Qed.
Lemma no0_h : forallb (forallb no0_entry) th_table = true.
Proof. vm_compute. reflexivity. Qed.
Lemma forallb_nth {A} (f : A -> bool) l i d : forallb f l = true -> f d = true -> f (nth i l d) = true.
Proof.
  intros H D. destruct (Nat.ltb_spec i (length l)) as [L|L]; [|rewrite nth_overflow by exact L; exact D].
  rewrite forallb_forall in H. apply H, nth_In, L.
Qed.
Lemma vprod_same v w l : (forall k, v (S k) = w (S k)) -> forallb (fun k => negb (k =? 0)%nat) l = true -> vprod v l = vprod w l.
Proof.
  intro E. induction l as [|k l IH]; [reflexivity|]. cbn [forallb vprod]. rewrite andb_true_iff. intros (K & L).
  destruct k as [|k]; [discriminate K|]. rewrite E, (IH L). reflexivity.
Qed.
Lemma row_same v w r : (forall k, v (S k) = w (S k)) -> forallb (fun t : tterm => let (_, _, l) := t in forallb (fun k => negb (k =? 0)%nat) l) r = true ->
  row_val v r = row_val w r.
Proof.
  intro E. unfold row_val. induction r as [|[n d l] r IH]; [reflexivity|]. cbn [forallb fold_right]. rewrite andb_true_iff. intros (K & L).
  rewrite (IH L). unfold tterm_val at 1 3. rewrite (vprod_same v w l E K). reflexivity.
Qed.
Lemma entry_same v w h e : (forall k, v (S k) = w (S k)) -> no0_entry e = true -> entry_val v h e = entry_val w h e.
Proof.
  intro E. induction e as [|r e IH]; [reflexivity|]. unfold no0_entry. cbn [forallb entry_val]. rewrite andb_true_iff. intros (K & L).
  rewrite (IH L), (row_same v w r E K). reflexivity.
Qed.
Lemma tcoeff_same v w h q i j : (forall k, v (S k) = w (S k)) -> tcoeff v h q i j = tcoeff w h q i j.
Proof.
  intro E. apply entry_same; [exact E|]. unfold tdelta_src. apply (forallb_nth no0_entry); [|reflexivity].
  apply (forallb_nth (forallb no0_entry)); [|reflexivity]. apply (forallb_nth (forallb (forallb no0_entry))); [exact no0_delta|reflexivity].
Qed.
Lemma tcoeff_h_same v w h q i : (forall k, v (S k) = w (S k)) -> tcoeff_h v h q i = tcoeff_h w h q i.
Proof.
  intro E. apply entry_same; [exact E|]. unfold th_src. apply (forallb_nth no0_entry); [|reflexivity].
  apply (forallb_nth (forallb no0_entry)); [exact no0_h|reflexivity].
Qed.
Lemma acc_ext n b f g e : (forall i, f i = g i) -> acc_eta n b f e = acc_eta n b g e.
Proof. intro E. unfold acc_eta. generalize (seq 0 n). intro l. revert b. induction l as [|i l IH]; intro b; [reflexivity|]. cbn [fold_left]. rewrite E. apply IH. Qed.
Lemma horner_ext f g x n : (forall i, f i = g i) -> horner f x n = horner g x n.
Proof.
  intro E. unfold horner. rewrite E. generalize (g (n - 1)%nat). generalize (n - 1)%nat. intro k. induction k as [|k IH]; intro r; [reflexivity|].
  cbn [horner_loop]. rewrite E. apply IH.
Qed.
Lemma step_delta_move etaf v w h E c delta : (forall k, v (S k) = w (S k)) -> w 0%nat = v 0%nat + c ->
  step_delta etaf w h (E + c) delta = step_delta etaf v h E delta.
Proof.
  intros K Z. unfold step_delta. rewrite Z, sub_move.
  assert (forall q i, horner (tcoeff w h q i) delta HMAX_delta = horner (tcoeff v h q i) delta HMAX_delta) as Hh.
  { intros q i. apply horner_ext. intro j. apply tcoeff_same. intro k. symmetry. apply K. }
  f_equal; apply acc_ext; intro i; apply Hh.
Qed.
Lemma step_full_move etaf v w h E c : (forall k, v (S k) = w (S k)) -> w 0%nat = v 0%nat + c ->
  step_full etaf w h (E + c) = step_full etaf v h E.
Proof.
  intros K Z. unfold step_full. rewrite Z, sub_move.
  f_equal; apply acc_ext; intro i; apply tcoeff_h_same; intro k; symmetry; apply K.
Qed.
Lemma calcT_move etaf a c s E delta use_h : calculateT etaf (move a c s) (E + c) delta use_h = calculateT etaf s E delta use_h.
Proof.
  unfold calculateT. rewrite sh_move.
  rewrite (step_full_move etaf (fun k => nth k (spay s) 0) (fun k => nth k (spay (move a c s)) 0) (sh s) E c) by (intros; try (symmetry; apply vk_move); reflexivity).
  rewrite (step_delta_move etaf (fun k => nth k (spay s) 0) (fun k => nth k (spay (move a c s)) 0) (sh s) E c delta) by (intros; try (symmetry; apply vk_move); reflexivity).
  reflexivity.
Qed.
Lemma calcTh_move etaf a c s E use_h : calculateT_h etaf (move a c s) (E + c) use_h = calculateT_h etaf s E use_h.
Proof.
  unfold calculateT_h. rewrite calcT_move, sh_move.
  rewrite (step_full_move etaf (fun k => nth k (spay s) 0) (fun k => nth k (spay (move a c s)) 0) (sh s) E c) by (intros; try (symmetry; apply vk_move); reflexivity).
  reflexivity.
Qed.

(** ** Propagation and matching *)
Section Propagation.
Variable etaf : nat -> R -> list R.
Variables (a c : R).
Let calcT := calculateT etaf.
Lemma prufer_move vm s E delta ya yb : prufer (vm + c) (move a c s) (E + c) delta ya yb = prufer vm s E delta ya yb.
Proof using. unfold prufer. rewrite scaling_move, v0_move, ltb_move, sub_move. reflexivity. Qed.
Lemma theta0_move vm s E y : theta0 (vm + c) (move a c s) (E + c) y = theta0 vm s E y.
Proof using. unfold theta0. rewrite scaling_move, v0_move, ltb_move, sub_move. reflexivity. Qed.
Lemma propDelta_move vm s E u delta st : propagateDelta calcT (vm + c) (move a c s) (E + c) u delta st = propagateDelta calcT vm s E u delta st.
Proof using.
  destruct st as (y, th). unfold propagateDelta. rewrite sh_move. unfold calcT. rewrite calcT_move, !prufer_move. reflexivity.
Qed.
Lemma sprop_move vm s E y p q u : sprop calcT (vm + c) (move a c s) (E + c) y (p + a) (q + a) u = sprop calcT vm s E y p q u.
Proof using.
  unfold sprop. change (smax (move a c s)) with (smax s + a). change (smin (move a c s)) with (smin s + a). change (sdir (move a c s)) with (sdir s).
  rewrite !leb_move, !ltb_move, !sub_move, !propDelta_move. reflexivity.
Qed.
Lemma vget_move l i : vget (map (move a c) l) i = (do s <- vget l i; Ret (move a c s)).
Proof using.
  unfold vget. destruct (i <? 0)%Z; [reflexivity|]. rewrite nth_error_map. destruct (nth_error l (Z.to_nat i)); reflexivity.
Qed.
Lemma contains_move s x : contains (move a c s) (x + a) = contains s x.
Proof using. unfold contains. change (Rleb (x + a) (smax s + a) && Rleb (smin s + a) (x + a) = Rleb x (smax s) && Rleb (smin s) x). rewrite !leb_move. reflexivity. Qed.
Lemma find_move fuel l x : forall i j, find_sector_loop fuel (map (move a c) l) (x + a) i j = find_sector_loop fuel l x i j.
Proof using.
  induction fuel as [|fuel IH]; intros i j; [reflexivity|]. cbn [find_sector_loop]. rewrite vget_move. destruct (vget l _) as [s| | |]; cbn; try reflexivity.
  rewrite contains_move. destruct (contains s x); [reflexivity|]. destruct (_ =? i)%Z; [reflexivity|].
  change (slt (x + a) (smin s + a)) with (Rltb (x + a) (smin s + a)). rewrite ltb_move. change (slt x (smin s)) with (Rltb x (smin s)). destruct (Rltb x (smin s)); apply IH.
Qed.
Lemma prop_loop_move vm l E p q u fuel : forall i y th, prop_loop calcT (vm + c) fuel (map (move a c) l) (E + c) (p + a) (q + a) u i y th = prop_loop calcT vm fuel l E p q u i y th.
Proof using.
  induction fuel as [|fuel IH]; intros i y th; [reflexivity|]. cbn [prop_loop]. rewrite vget_move. destruct (vget l i) as [s| | |]; cbn [bind]; try reflexivity.
  rewrite sprop_move. destruct (sprop calcT vm s E y p q u) as (y', dth). rewrite contains_move, ltb_move, map_length. destruct (contains s q); [reflexivity|].
  destruct ((0 <=? _) && _)%Z; [apply IH|reflexivity].
Qed.
Lemma propagate_move vm l lo hi E y p q u :
  propagate calcT (vm + c) (map (move a c) l) (lo + a) (hi + a) (E + c) y (p + a) (q + a) u = propagate calcT vm l lo hi E y p q u.
Proof using.
  unfold propagate. change (dom_contains (lo + a) (hi + a) (p + a)) with (Rleb (lo + a) (p + a) && Rleb (p + a) (hi + a)).
  change (dom_contains (lo + a) (hi + a) (q + a)) with (Rleb (lo + a) (q + a) && Rleb (q + a) (hi + a)). rewrite !leb_move.
  change (Rleb lo p && Rleb p hi) with (dom_contains lo hi p). change (Rleb lo q && Rleb q hi) with (dom_contains lo hi q).
  destruct (negb (dom_contains lo hi p) || negb (dom_contains lo hi q)); [reflexivity|]. unfold find_sector. rewrite map_length, find_move.
  destruct (find_sector_loop _ l p 0 _) as [i| | |]; cbn [bind]; try reflexivity. rewrite vget_move. destruct (vget l i) as [s| | |]; cbn [bind]; try reflexivity.
  unfold theta_start. rewrite theta0_move, ltb_move. apply prop_loop_move.
Qed.
Lemma matching_move vm l m lo hi E left right u :
  matchingError calcT (vm + c) (map (move a c) l) m (lo + a) (hi + a) (E + c) left right u = matchingError calcT vm l m lo hi E left right u.
Proof using.
  unfold matchingError. rewrite vget_move. destruct (vget l m) as [s| | |]; cbn [bind]; try reflexivity.
  change (smax (move a c s)) with (smax s + a). rewrite !propagate_move. reflexivity.
Qed.
End Propagation.
Lemma error_move etaf a c s : sector_error etaf (move a c s) = sector_error etaf s.
Proof.
  unfold sector_error. change (nth 0 (spay (move a c s)) 0) with (nth 0 (spay s) 0 + c). rewrite !calcTh_move, sh_move, !vk_move. reflexivity.
Qed.
Lemma compare_move a c s t : compare_vs (move a c s) (move a c t) = compare_vs s t.
Proof. unfold compare_vs. change (slt (nth 0 (spay s) 0 + c) (nth 0 (spay t) 0 + c) = slt (nth 0 (spay s) 0) (nth 0 (spay t) 0)). apply ltb_move. Qed.

(** ** The automatic mesh *)
Section Mesh.
Variables (a c : R).
Variables (pay pay' : R -> R -> dir -> list R) (err : sec -> R) (cmp : sec -> sec -> bool) (powf : R -> R -> R) (tol : R).
Hypothesis Hpay : forall lo hi d, pay' (lo + a) (hi + a) d = raise c (pay lo hi d).
Hypothesis Herr : forall s, err (move a c s) = err s.
Hypothesis Hcmp : forall s t, cmp (move a c s) (move a c t) = cmp s t.
Notation mv := (move a c).
Lemma mk_move lo hi d : mk pay' (lo + a) (hi + a) d = mv (mk pay lo hi d).
Proof using Hpay. unfold mk, move. cbn [smin smax sdir spay]. rewrite Hpay. reflexivity. Qed.
Lemma add_r x h : (x + a) + h = (x + h) + a.
Proof using. ring. Qed.
Lemma sub_r x h : (x + a) - h = (x - h) + a.
Proof using. ring. Qed.
Lemma if_r (b : bool) x y : (if b then x + a else y + a) = (if b then x else y) + a.
Proof using. destruct b; reflexivity. Qed.
Lemma shrink_move fuel d : forall steps h xmin xmax s log,
  shrink_loop pay' err powf tol fuel d steps h (xmin + a) (xmax + a) (mv s) (map mv log) =
  (do r <- shrink_loop pay err powf tol fuel d steps h xmin xmax s log; let '(n, h, x, y, s, l) := r in Ret (n, h, x + a, y + a, mv s, map mv l)).
Proof using Hpay Herr.
  induction fuel as [|fuel IH]; intros steps h xmin xmax s log; cbn [shrink_loop]; rewrite Herr; destruct (slt tol (err s) && (steps <? 10)%Z && slt c_1em3 h); try reflexivity.
  cbn [sadd ssub Scalar_R]. set (h' := smul h _). destruct d; rewrite ?(add_r xmin h'), ?(sub_r xmax h'), mk_move, sub_move, <- IH, map_app; reflexivity.
Qed.
Lemma grow_move fuel d left right : forall steps h xmin xmax e s log,
  grow_loop pay' err powf tol fuel d (left + a) (right + a) steps h (xmin + a) (xmax + a) e (mv s) (map mv log) =
  (do r <- grow_loop pay err powf tol fuel d left right steps h xmin xmax e s log; let '(h, s, l) := r in Ret (h, mv s, map mv l)).
Proof using Hpay Herr.
  induction fuel as [|fuel IH]; intros steps h xmin xmax e s log; cbn [grow_loop]; cbn [ssub Scalar_R]; rewrite sub_move;
    destruct (slt e (sdiv tol (sofZ 2)) && (steps <? 10)%Z && negb (seqb h (right - left))); try reflexivity.
  assert (forall x y, (if slt tol (err (mk pay' (x + a) (y + a) d)) then Ret (smax (mv s) - smin (mv s), mv s, map mv log ++ [mk pay' (x + a) (y + a) d])
      else grow_loop pay' err powf tol fuel d (left + a) (right + a) (steps + 1) (y + a - (x + a)) (x + a) (y + a) (err (mk pay' (x + a) (y + a) d)) (mk pay' (x + a) (y + a) d) (map mv log ++ [mk pay' (x + a) (y + a) d])) =
      (do r <- (if slt tol (err (mk pay x y d)) then Ret (smax s - smin s, s, log ++ [mk pay x y d])
      else grow_loop pay err powf tol fuel d left right (steps + 1) (y - x) x y (err (mk pay x y d)) (mk pay x y d) (log ++ [mk pay x y d])); let '(h, s, l) := r in Ret (h, mv s, map mv l))) as G.
  { intros x y. rewrite mk_move, Herr. destruct (slt tol (err (mk pay x y d))).
    - cbn [bind]. change (smax (mv s)) with (smax s + a). change (smin (mv s)) with (smin s + a). rewrite sub_move, map_app. reflexivity.
    - rewrite sub_move, <- IH, map_app. reflexivity. }
  destruct (sle e (sofZ 0)); [apply G|]. cbn [sadd ssub slt Scalar_R]. set (h' := smul h _). destruct d; rewrite ?(add_r xmin h'), ?(sub_r xmax h'), ltb_move, if_r; apply G.
Qed.
Lemma next_move h left right d log :
  next_sector pay' err powf tol h (left + a) (right + a) d (map mv log) =
  (do r <- next_sector pay err powf tol h left right d log; let '(s, h, l) := r in Ret (mv s, h, map mv l)).
Proof using Hpay Herr.
  unfold next_sector. cbn [sadd ssub slt Scalar_R].
  assert (forall x y,
    (do r <- shrink_loop pay' err powf tol 11 d 0 (y + a - (x + a)) (x + a) (y + a) (mk pay' (x + a) (y + a) d) (map mv log ++ [mk pay' (x + a) (y + a) d]);
     let '(steps, h, xmin, xmax, s, log) := r in
     if (steps =? 0)%Z then
       do g <- grow_loop pay' err powf tol 11 d (left + a) (right + a) 0 h xmin xmax (err s) s log;
       let '(h, s, log) := g in Ret (s, h, log)
     else Ret (s, h, log)) =
    (do r <- (do r <- shrink_loop pay err powf tol 11 d 0 (y - x) x y (mk pay x y d) (log ++ [mk pay x y d]);
     let '(steps, h, xmin, xmax, s, log) := r in
     if (steps =? 0)%Z then
       do g <- grow_loop pay err powf tol 11 d left right 0 h xmin xmax (err s) s log;
       let '(h, s, log) := g in Ret (s, h, log)
     else Ret (s, h, log)); let '(s, h, l) := r in Ret (mv s, h, map mv l))) as G.
  { intros x y. rewrite mk_move, sub_move. change (map mv log ++ [mv (mk pay x y d)]) with (map mv log ++ map mv [mk pay x y d]). rewrite <- map_app, shrink_move.
    destruct (shrink_loop pay err powf tol 11 d 0 (y - x) x y (mk pay x y d) (log ++ [mk pay x y d])) as [(((((n, h'), x'), y'), s'), l')| | |]; cbn [bind]; try reflexivity.
    destruct (n =? 0)%Z; [|reflexivity]. rewrite Herr, grow_move. destruct (grow_loop pay err powf tol 11 d left right 0 h' x' y' (err s') s' l') as [((h2, s2), l2)| | |]; reflexivity. }
  destruct d; rewrite ?(add_r left h), ?(sub_r right h), ?ltb_move, ?if_r; apply G.
Qed.
Lemma min_r x y : std_min (x + a) (y + a) = std_min x y + a.
Proof using. unfold std_min. cbn [slt Scalar_R]. rewrite ltb_move. apply if_r. Qed.
Lemma max_r x y : std_max (x + a) (y + a) = std_max x y + a.
Proof using. unfold std_max. cbn [slt Scalar_R]. rewrite ltb_move. apply if_r. Qed.
Lemma fwd_r hi fj : next_fwd (hi + a) (map (fun x => x + a) fj) = next_fwd hi fj + a.
Proof using. destruct fj; reflexivity. Qed.
Lemma bwd_r lo bj : next_bwd (lo + a) (map (fun x => x + a) bj) = next_bwd lo bj + a.
Proof using. destruct bj; reflexivity. Qed.
Lemma pop_map {A B} (f : A -> B) l : pop (map f l) = (do r <- pop l; Ret (map f r)).
Proof using. destruct l; reflexivity. Qed.
Notation mvx := (map (fun x => x + a)).
Lemma auto_move lo hi fuel : forall fs bs f0 b0 hf hb fj bj log,
  auto_loop pay' err cmp powf tol fuel (lo + a) (hi + a) (map mv fs) (map mv bs) (mv f0) (mv b0) hf hb (mvx fj) (mvx bj) (map mv log) =
  (do r <- auto_loop pay err cmp powf tol fuel lo hi fs bs f0 b0 hf hb fj bj log; let '(f, b, l) := r in Ret (map mv f, map mv b, map mv l)).
Proof using Hpay Herr Hcmp.
  induction fuel as [|fuel IH]; intros fs bs f0 b0 hf hb fj bj log; cbn [auto_loop];
    change (seqb (smax (mv f0)) (smin (mv b0))) with (Reqb (smax f0 + a) (smin b0 + a)); rewrite eqb_move; change (seqb (smax f0) (smin b0)) with (Reqb (smax f0) (smin b0));
    destruct (Reqb (smax f0) (smin b0)); try reflexivity.
  rewrite Hcmp. destruct (cmp b0 f0).
  - change (smax (mv f0)) with (smax f0 + a). change (smin (mv b0)) with (smin b0 + a). rewrite fwd_r. change (seqb (smax f0 + a) (next_fwd hi fj + a)) with (Reqb (smax f0 + a) (next_fwd hi fj + a)).
    rewrite eqb_move. change (Reqb (smax f0) (next_fwd hi fj)) with (seqb (smax f0) (next_fwd hi fj)).
    replace (if seqb (smax f0) (next_fwd hi fj) then pop (mvx fj) else Ret (mvx fj)) with (do r <- (if seqb (smax f0) (next_fwd hi fj) then pop fj else Ret fj); Ret (mvx r))
      by (destruct (seqb (smax f0) (next_fwd hi fj)); [symmetry; apply pop_map|reflexivity]).
    destruct (if seqb (smax f0) (next_fwd hi fj) then pop fj else Ret fj) as [fj'| | |]; cbn [bind]; try reflexivity.
    rewrite fwd_r, min_r, next_move. destruct (next_sector pay err powf tol hf (smax f0) (std_min (smin b0) (next_fwd hi fj')) Dfwd log) as [((s, hf'), log')| | |]; cbn [bind]; try reflexivity.
    rewrite <- IH. reflexivity.
  - change (smax (mv f0)) with (smax f0 + a). change (smin (mv b0)) with (smin b0 + a). rewrite bwd_r. change (seqb (smin b0 + a) (next_bwd lo bj + a)) with (Reqb (smin b0 + a) (next_bwd lo bj + a)).
    rewrite eqb_move. change (Reqb (smin b0) (next_bwd lo bj)) with (seqb (smin b0) (next_bwd lo bj)).
    replace (if seqb (smin b0) (next_bwd lo bj) then pop (mvx bj) else Ret (mvx bj)) with (do r <- (if seqb (smin b0) (next_bwd lo bj) then pop bj else Ret bj); Ret (mvx r))
      by (destruct (seqb (smin b0) (next_bwd lo bj)); [symmetry; apply pop_map|reflexivity]).
    destruct (if seqb (smin b0) (next_bwd lo bj) then pop bj else Ret bj) as [bj'| | |]; cbn [bind]; try reflexivity.
    rewrite bwd_r, max_r, next_move. destruct (next_sector pay err powf tol hb (std_max (smax f0) (next_bwd lo bj')) (smin b0) Dbwd log) as [((s, hb'), log')| | |]; cbn [bind]; try reflexivity.
    rewrite <- IH. reflexivity.
Qed.
Lemma build_move fuel jumps lo hi :
  auto_build pay' err cmp powf tol fuel (mvx jumps) (lo + a) (hi + a) =
  (do r <- auto_build pay err cmp powf tol fuel jumps lo hi; let '(l, m, g) := r in Ret (map mv l, m, map mv g)).
Proof using Hpay Herr Hcmp.
  unfold auto_build. cbn [sadd smul ssub Scalar_R]. rewrite sub_move, <- map_rev, fwd_r.
  replace (c_midmax * (hi + a) + c_midmin * (lo + a)) with ((c_midmax * hi + c_midmin * lo) + a) by (unfold c_midmax, c_midmin; cbn [sofQ Scalar_R Qnum Qden]; field).
  rewrite min_r. change (@nil sec) with (map mv []) at 1. rewrite next_move.
  set (mid := c_midmax * hi + c_midmin * lo). set (h := c_p33 * (hi - lo)).
  destruct (next_sector pay err powf tol h lo (std_min mid (next_fwd hi jumps)) Dfwd []) as [((f0, hf), log)| | |]; cbn [bind]; try reflexivity.
  rewrite bwd_r, max_r, next_move. destruct (next_sector pay err powf tol h (std_max mid (next_bwd lo (rev jumps))) hi Dbwd log) as [((b0, hb), log2)| | |]; cbn [bind]; try reflexivity.
  change (@nil sec) with (map mv []) at 1 2. rewrite auto_move.
  destruct (auto_loop pay err cmp powf tol fuel lo hi [] [] f0 b0 hf hb jumps (rev jumps) log2) as [((fs, bs), log3)| | |]; cbn [bind]; try reflexivity.
  rewrite map_app, map_rev, map_length. reflexivity.
Qed.
End Mesh.
Lemma rebind {A B} (x : res A) (f g : A -> B) : (forall r, f r = g r) -> (do r <- x; Ret (f r)) = (do r <- x; Ret (g r)).
Proof. intro E. destruct x; cbn [bind]; rewrite ?E; reflexivity. Qed.

(** ** The samples of the moved potential *)
Definition weight_sum (i : nat) : Q := fold_right (fun q acc => Qred (q + acc)) 0%Q (nth i (weights 16) []).
Lemma weight_sums : forallb (fun i => Qle_bool (Qred (weight_sum i - (if (i =? 0)%nat then 1 else 0)))%Q (1 # 10000000000000000) &&
  Qle_bool (-1 # 10000000000000000) (Qred (weight_sum i - (if (i =? 0)%nat then 1 else 0)))%Q && (length (nth i (weights 16) []) =? 16)%nat) (seq 0 16) = true.
Proof. vm_compute. reflexivity. Qed.
Lemma Q2R_sum l : Q2R (fold_right (fun q acc => Qred (q + acc)) 0%Q l) = sumR (map Q2R l).
Proof.
  unfold sumR. induction l as [|q l IH]; [unfold Q2R; cbn; lra|]. cbn [fold_right map]. rewrite (Qeq_eqR _ _ (Qred_correct _)), Q2R_plus, IH. reflexivity.
Qed.
Lemma dot_shift c ws : forall fs, length ws = length fs -> dot ws (map (fun y => y + c) fs) = dot ws fs + c * sumR ws.
Proof.
  intros fs. rewrite !dot_sum. unfold sumR. revert fs. induction ws as [|w ws IH]; intros [|f fs] L; try discriminate; cbn [combine map fold_right fst snd]; [lra|].
  injection L as L. specialize (IH fs L). cbn in IH. rewrite IH. lra.
Qed.
Lemma integrate_shift c V lo hi i : (i < 16)%nat ->
  exists d, Rabs d <= / 10000000000000000 /\ integrate false 16 (fun x => V x + c) lo hi i = integrate false 16 V lo hi i + c * ((if (i =? 0)%nat then 1 else 0) + d).
Proof.
  intro Hi. pose proof weight_sums as W. rewrite forallb_forall in W. specialize (W i ltac:(apply in_seq; lia)). cbn beta in W.
  apply andb_prop in W as (W & L). apply andb_prop in W as (A & B). apply Nat.eqb_eq in L. apply Qle_bool_iff, Qle_Rle in A. apply Qle_bool_iff, Qle_Rle in B.
  rewrite (Qeq_eqR _ _ (Qred_correct _)), Q2R_minus in A, B. unfold weight_sum in A, B. rewrite Q2R_sum in A, B.
  replace (Q2R (if (i =? 0)%nat then 1 else 0)) with (if (i =? 0)%nat then 1 else 0) in A, B by (destruct (i =? 0)%nat; unfold Q2R; cbn; lra).
  exists (sumR (map Q2R (nth i (weights 16) [])) - (if (i =? 0)%nat then 1 else 0)). split.
  - apply Rabs_le. unfold Q2R in A at 2. unfold Q2R in B at 1. cbn [Qnum Qden] in A, B. lra.
  - unfold integrate. cbn [smul]. unfold leg_fs. rewrite <- (map_map V (fun y => y + c)), dot_shift.
    + change (weight_row 16 i) with (map (@sofQ R _) (nth i (weights 16) [])). change (@sofQ R _) with Q2R. ring.
    + unfold weight_row, eval_points. rewrite !map_length. change (kof 16) with 16%nat. rewrite L. reflexivity.
Qed.

Lemma samples_translate V a lo hi d : sector_vs (fun x => V (x - a)) (lo + a) (hi + a) d = sector_vs V lo hi d.
Proof.
  assert (forall i, integrate false 16 (fun x => V (x - a)) (lo + a) (hi + a) i = integrate false 16 V lo hi i) as I.
  { intro i. unfold integrate. f_equal. unfold leg_fs, eval_points, leg_h. rewrite !map_map. apply map_ext. intro q. f_equal. cbn [sadd ssub smul sdiv sofZ Scalar_R]. field. }
  assert (leg_h (lo + a) (hi + a) = leg_h lo hi) as Hh by (unfold leg_h; cbn [ssub sdiv Scalar_R]; f_equal; apply sub_move).
  assert (getCoefficients 16 (fun x => V (x - a)) (lo + a) (hi + a) = getCoefficients 16 V lo hi) as G.
  { unfold getCoefficients. apply map_ext. intro i. rewrite I, Hh. reflexivity. }
  unfold sector_vs. rewrite G. reflexivity.
Qed.
Lemma move_0 a s : spay s <> [] -> move a 0 s = mkSector (smin s + a) (smax s + a) (sdir s) (spay s).
Proof. intro N. unfold move, raise. destruct (spay s) as [|v r]; [congruence|]. cbn [nth tl]. rewrite Rplus_0_r. reflexivity. Qed.
Lemma raise_0 v : v <> [] -> raise 0 v = v.
Proof. intro N. destruct v as [|x r]; [congruence|]. unfold raise. cbn [nth tl]. rewrite Rplus_0_r. reflexivity. Qed.
Lemma sector_vs_cons V lo hi d : sector_vs (T := R) V lo hi d <> [].
Proof. destruct d; discriminate. Qed.

(** ** Theorems *)
(** Propagation, angles included, and the matching function with its derivative: for every list of sectors, order of the arguments and
    starting vector. *)
Theorem C88_propagate : forall vm l lo hi E y p q use_h a c,
  propagate (calculateT eta_code) (vm + c) (map (move a c) l) (lo + a) (hi + a) (E + c) y (p + a) (q + a) use_h =
  propagate (calculateT eta_code) vm l lo hi E y p q use_h.
Proof. intros. apply propagate_move. Qed.
Theorem C88_matching : forall vm l m lo hi E left right use_h a c,
  matchingError (calculateT eta_code) (vm + c) (map (move a c) l) m (lo + a) (hi + a) (E + c) left right use_h =
  matchingError (calculateT eta_code) vm l m lo hi E left right use_h.
Proof. intros. apply matching_move. Qed.
(** The error estimate and the comparison that steer the builder do not see the move. *)
Theorem C88_estimates : forall a c s t, sector_error eta_code (move a c s) = sector_error eta_code s /\ compare_vs (move a c s) (move a c t) = compare_vs s t.
Proof. intros. split; [apply error_move|apply compare_move]. Qed.
(** So the automatic builder makes the moved mesh, with the same matching index and after the same constructions in the same order. *)
Definition moved_result (a c : R) (r : list sec * Z * list sec) : list sec * Z * list sec :=
  let '(l, m, log) := r in (map (move a c) l, m, map (move a c) log).
Theorem C88_mesh : forall (pay pay' : R -> R -> dir -> list R) powf tol fuel jumps lo hi a c,
  (forall x y d, pay' (x + a) (y + a) d = raise c (pay x y d)) ->
  auto_build pay' (sector_error eta_code) compare_vs powf tol fuel (map (fun x => x + a) jumps) (lo + a) (hi + a) =
  (do r <- auto_build pay (sector_error eta_code) compare_vs powf tol fuel jumps lo hi; Ret (moved_result a c r)).
Proof.
  intros pay pay' powf tol fuel jumps lo hi a c Hp. rewrite (build_move a c pay pay' (sector_error eta_code) compare_vs powf tol Hp (error_move eta_code a c) (compare_move a c)).
  destruct (auto_build pay _ _ _ _ _ _ _ _) as [((l, m), g)| | |]; reflexivity.
Qed.
(** The whole construction from a translated potential: exact. *)
Theorem C88_translated_potential : forall (V : R -> R) powf tol fuel jumps lo hi a,
  auto_build (sector_vs (fun x => V (x - a))) (sector_error eta_code) compare_vs powf tol fuel (map (fun x => x + a) jumps) (lo + a) (hi + a) =
  (do r <- auto_build (sector_vs V) (sector_error eta_code) compare_vs powf tol fuel jumps lo hi; Ret (moved_result a 0 r)).
Proof.
  intros V powf tol fuel jumps lo hi a. apply C88_mesh. intros x y d. rewrite samples_translate, raise_0 by apply sector_vs_cons. reflexivity.
Qed.
(** Raising the potential by c raises coefficient 0 by c and leaves the others alone up to the rounding of the quadrature weights (17 digits). *)
Theorem C88_raised_samples : forall (V : R -> R) c lo hi i, lo < hi -> (i < 16)%nat ->
  Rabs (nth i (getCoefficients 16 (fun x => V x + c) lo hi) 0 - nth i (getCoefficients 16 V lo hi) 0 - (if (i =? 0)%nat then c else 0)) <=
    Rabs c / 10000000000000000 / ((hi - lo) / 2) ^ i.
Proof.
  intros V c lo hi i Hlo Hi. rewrite !nth_coeffs by exact Hi. destruct (integrate_shift c V lo hi i Hi) as (d & Hd & E). rewrite E.
  assert (0 < ((hi - lo) / 2) ^ i) as P by (apply pow_lt; lra). set (h := ((hi - lo) / 2) ^ i) in *.
  replace ((integrate false 16 V lo hi i + c * ((if (i =? 0)%nat then 1 else 0) + d)) / h - integrate false 16 V lo hi i / h - (if (i =? 0)%nat then c else 0))
    with (c * d / h) by (destruct i as [|i]; cbn [Nat.eqb]; unfold h; [cbn [pow]; field|field; fold h; lra]).
  unfold Rdiv at 1. rewrite Rabs_mult, (Rabs_pos_eq (/ h)) by (apply Rlt_le, Rinv_0_lt_compat, P). unfold Rdiv at 2.
  apply Rmult_le_compat_r; [apply Rlt_le, Rinv_0_lt_compat, P|]. rewrite Rabs_mult. apply Rmult_le_compat_l; [apply Rabs_pos|exact Hd].
Qed.

(** ** Examples *)
Definition sh_V (x y : R) (d : dir) : list R := [x + y].
Example C88_mesh_case : forall x y d, (fun x y d => [x + y - 10 + 3]) (x + 5) (y + 5) d = raise 3 (sh_V x y d).
Proof. intros. unfold raise, sh_V. cbn [nth tl]. f_equal. ring. Qed.
Example C88_move_case : move 5 3 (mkSector 0 1 Dbwd [2; 7]) = mkSector 5 6 Dbwd [5; 7].
Proof. unfold move, raise. cbn. f_equal; [ring|ring|f_equal; ring]. Qed.
Example C88_raised_samples_case : nth 0 (getCoefficients (T := Q) 16 (fun x => x) 0%Q 1%Q) 0%Q <> 0%Q.
Proof. vm_compute. discriminate. Qed.

Print Assumptions C88_propagate.
Print Assumptions C88_matching.
Print Assumptions C88_estimates.
Print Assumptions C88_mesh.
Print Assumptions C88_translated_potential.
Print Assumptions C88_raised_samples.
