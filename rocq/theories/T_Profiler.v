(** C85: the profiler's report is right for every nesting of timed calls. *)
From Coq Require Import String Ascii ZArith Lia Bool.
From Coq Require Import List Sorting.Sorted Sorting.Permutation.
From Verif Require Import Base M_Profiler.
Import ListNotations.
Open Scope Z_scope.

(** ** Specification *)
(** A call made in the course of a run: the names of the calls it is nested in, ending with its own, its number in the order in which the
    calls start, and its duration. *)
Record occurrence := mkOcc { path : list string; start : Z; duration : Z }.
(** the number of timed calls *)
Fixpoint size (c : call) : Z := match c with Call _ inner _ => 1 + fold_right (fun c n => size c + n) 0 inner end.
Definition sizes (l : list call) : Z := fold_right (fun c n => size c + n) 0 l.
(** all calls made, in the order in which they end, when [P] are the names of the calls around and s calls were started before *)
Fixpoint made (P : list string) (s : Z) (c : call) : list occurrence :=
  match c with
  | Call name inner d =>
      (fix go (l : list call) (s : Z) : list occurrence := match l with [] => [] | c :: r => made (P ++ [name]) s c ++ go r (s + size c) end) inner (s + 1)
      ++ [mkOcc (P ++ [name]) s d]
  end.
Fixpoint all_made (P : list string) (s : Z) (l : list call) : list occurrence :=
  match l with [] => [] | c :: r => made P s c ++ all_made P (s + size c) r end.
(** the text by which a path is listed *)
Definition id (p : list string) : string := fold_right (fun n r => append (append " > " n) r) ""%string p.
Definition at_id (i : string) (L : list occurrence) : list occurrence := filter (fun o => String.eqb (id (path o)) i) L.
(** what the report should say about it: how many calls, when the first one started, total duration *)
Definition summary (i : string) (L : list occurrence) : option entry :=
  match at_id i L with
  | [] => None
  | o :: r => Some (mkEntry (Z.of_nat (length (o :: r))) (start o) (fold_right (fun o t => duration o + t) 0 (o :: r)))
  end.

Lemma call_ind2 : forall P : call -> Prop, (forall n l d, Forall P l -> P (Call n l d)) -> forall c, P c.
Proof.
  intros P H. fix IH 1. intros [n l d]. apply H. induction l as [|c l IHl]; constructor; [apply IH|exact IHl].
Qed.
Lemma made_call : forall P s n l d, made P s (Call n l d) = all_made (P ++ [n]) (s + 1) l ++ [mkOcc (P ++ [n]) s d].
Proof.
  intros P s n l d. cbn [made]. f_equal. generalize (s + 1). induction l as [|c l IH]; intro t; [reflexivity|]. cbn [all_made]. rewrite <- IH. reflexivity.
Qed.
Lemma run_call_call : forall n l d p, run_call (Call n l d) p = (do p1 <- run l (push n p); do p2 <- addTime d p1; pop p2).
Proof.
  intros n l d p. cbn [run_call]. assert (forall q, (fix go (l : list call) (p : profiler) : res profiler := match l with [] => Ret p | c :: r => do p' <- run_call c p; go r p' end) l q = run l q) as ->; [|reflexivity].
  induction l as [|c l IH]; intro q; [reflexivity|]. cbn [run]. destruct (run_call c q); cbn [bind]; [apply IH|..]; reflexivity.
Qed.

(** ** The invariant *)
Definition tracks (p : profiler) (L : list occurrence) : Prop := NoDup (map fst (times p)) /\ forall i, find i (times p) = summary i L.
Definition stack_path (p : profiler) : list string := map fst (rev (stack p)).
Lemma append_nil : forall s : string, append s "" = s.
Proof. induction s as [|c s IH]; [reflexivity|cbn; rewrite IH; reflexivity]. Qed.
Lemma append_assoc : forall a b c : string, append (append a b) c = append a (append b c).
Proof. induction a as [|x a IH]; intros b c; [reflexivity|cbn [append]; rewrite IH; reflexivity]. Qed.
Lemma identifier_path : forall p, stack p <> [] -> identifier p = id (stack_path p).
Proof.
  intros p H. unfold identifier, stack_path. destruct (stack p) as [|x s]; [congruence|]. generalize (rev (x :: s)). intro l.
  assert (forall a, fold_left (fun i (c : string * Z) => append i (append " > " (fst c))) l a = append a (id (map fst l))) as G.
  { induction l as [|c l IH]; intro a; cbn [fold_left map id fold_right]; [rewrite append_nil; reflexivity|]. rewrite IH. unfold id. rewrite append_assoc. reflexivity. }
  apply G.
Qed.
Lemma find_update : forall i j f l, find i (update j f l) = if String.eqb j i then match find i l with Some e => Some (f e) | None => None end else find i l.
Proof.
  intros i j f. induction l as [|[k e] l IH]; cbn [update find]; [destruct (String.eqb j i); reflexivity|].
  destruct (String.eqb_spec k j) as [->|K]; cbn [find].
  - destruct (String.eqb_spec j i) as [->|J]; [reflexivity|]. reflexivity.
  - rewrite IH. destruct (String.eqb_spec k i) as [->|K2]; [|reflexivity]. destruct (String.eqb_spec j i) as [->|]; [contradiction|reflexivity].
Qed.
Lemma find_snoc : forall i j e l, find i (l ++ [(j, e)]) = match find i l with Some e => Some e | None => if String.eqb j i then Some e else None end.
Proof. intros i j e. induction l as [|[k x] l IH]; cbn [app find]; [destruct (String.eqb j i); reflexivity|]. destruct (String.eqb k i); [reflexivity|apply IH]. Qed.
Lemma sum_app : forall (L M : list occurrence), fold_right (fun o t => duration o + t) 0 (L ++ M) = fold_right (fun o t => duration o + t) 0 L + fold_right (fun o t => duration o + t) 0 M.
Proof. induction L as [|o L IH]; intro M; cbn [app fold_right]; [lia|]. rewrite IH. lia. Qed.
Lemma summary_snoc : forall i L o, summary i (L ++ [o]) =
  if String.eqb (id (path o)) i then match summary i L with Some e => Some (mkEntry (count e + 1) (insertion e) (time e + duration o)) | None => Some (mkEntry 1 (start o) (duration o)) end else summary i L.
Proof.
  intros i L o. unfold summary, at_id. rewrite filter_app. cbn [filter]. destruct (String.eqb (id (path o)) i); [|rewrite app_nil_r; reflexivity].
  destruct (filter _ L) as [|x r]; cbn [app]; [cbn; do 2 f_equal; lia|]. do 2 f_equal.
  - cbn [length]. rewrite app_length. cbn [length count]. lia.
  - cbn [time fold_right]. rewrite sum_app. cbn [fold_right]. lia.
Qed.
Lemma update_keys : forall j f l, map fst (update j f l) = map fst l.
Proof. intros j f. induction l as [|[k e] l IH]; [reflexivity|]. cbn [update]. destruct (String.eqb k j); cbn [map fst]; [reflexivity|rewrite IH; reflexivity]. Qed.
Lemma find_none : forall i l, find i l = None -> ~ In i (map fst l).
Proof.
  intros i. induction l as [|[k e] l IH]; cbn [find map fst In]; [intros _ []|]. destruct (String.eqb_spec k i) as [->|K]; [discriminate|]. intros F [E|N]; [contradiction|exact (IH F N)].
Qed.
Lemma find_in : forall i e l, NoDup (map fst l) -> In (i, e) l -> find i l = Some e.
Proof.
  intros i e. induction l as [|[k x] l IH]; [intros _ []|]. cbn [map fst]. intros ND [E|N]; inversion ND as [|? ? Hn Hd]; subst; cbn [find].
  - injection E as -> ->. rewrite String.eqb_refl. reflexivity.
  - destruct (String.eqb_spec k i) as [->|K]; [|exact (IH Hd N)]. exfalso. apply Hn. change i with (fst (i, e)). apply in_map. exact N.
Qed.
Lemma nodup_snoc : forall A (l : list A) x, NoDup l -> ~ In x l -> NoDup (l ++ [x]).
Proof. intros A l x ND N. apply NoDup_rev in ND. rewrite <- (rev_involutive (l ++ [x])). apply NoDup_rev. rewrite rev_app_distr. constructor; [rewrite <- in_rev; exact N|exact ND]. Qed.
Lemma addTime_tracks : forall d p L n s r, tracks p L -> stack p = (n, s) :: r ->
  exists p', addTime d p = Ret p' /\ tracks p' (L ++ [mkOcc (stack_path p) s d]) /\ stack p' = stack p /\ counter p' = counter p.
Proof.
  intros d p L n s r (ND & T) S. unfold addTime. rewrite identifier_path by congruence. destruct (find (id (stack_path p)) (times p)) as [e|] eqn:F.
  - eexists. split; [reflexivity|]. split; [|split; reflexivity]. split; [cbn [times]; rewrite update_keys; exact ND|].
    intro i. cbn [times]. rewrite find_update, summary_snoc. cbn [path duration start]. rewrite <- (T i).
    destruct (String.eqb_spec (id (stack_path p)) i) as [<-|]; [|reflexivity]. rewrite F. reflexivity.
  - rewrite S. eexists. split; [reflexivity|]. split; [|split; reflexivity]. split; [cbn [times]; rewrite map_app; apply nodup_snoc; [exact ND|exact (find_none _ _ F)]|].
    intro i. cbn [times]. rewrite find_snoc, summary_snoc. cbn [path duration start]. rewrite <- (T i).
    destruct (String.eqb_spec (id (stack_path p)) i) as [<-|]; [rewrite F; reflexivity|]. destruct (find i (times p)); reflexivity.
Qed.
Definition good (c : call) : Prop := forall p L, tracks p L ->
  exists p', run_call c p = Ret p' /\ tracks p' (L ++ made (stack_path p) (counter p) c) /\ stack p' = stack p /\ counter p' = counter p + size c.
Lemma run_good : forall l, Forall good l -> forall p L, tracks p L ->
  exists p', run l p = Ret p' /\ tracks p' (L ++ all_made (stack_path p) (counter p) l) /\ stack p' = stack p /\ counter p' = counter p + sizes l.
Proof.
  induction 1 as [|c l G _ IH]; intros p L T; [exists p; cbn [run all_made]; rewrite app_nil_r; split; [reflexivity|]; split; [exact T|]; split; [reflexivity|]; cbn; lia|]. cbn [run].
  destruct (G p L T) as (p1 & E1 & T1 & S1 & C1). rewrite E1. cbn [bind]. destruct (IH p1 _ T1) as (p2 & E2 & T2 & S2 & C2).
  exists p2. split; [exact E2|]. cbn [all_made]. rewrite app_assoc. replace (stack_path p1) with (stack_path p) in T2 by (unfold stack_path; rewrite S1; reflexivity). rewrite C1 in T2.
  split; [exact T2|]. split; [congruence|]. rewrite C2, C1. unfold sizes. cbn [fold_right]. fold (sizes l). lia.
Qed.
Lemma call_good : forall c, good c.
Proof.
  induction c as [n l d F] using call_ind2. intros p L T. rewrite run_call_call, made_call.
  destruct (run_good l F (push n p) L T) as (p1 & E1 & T1 & S1 & C1). rewrite E1. cbn [bind].
  assert (stack_path (push n p) = stack_path p ++ [n]) as SP by (unfold stack_path, push; cbn [stack rev]; rewrite map_app; reflexivity).
  destruct (addTime_tracks d p1 _ n (counter p) (stack p) T1 S1) as (p2 & E2 & T2 & S2 & C2). rewrite E2. cbn [bind]. unfold pop. rewrite S2, S1. cbn [push stack].
  eexists. split; [reflexivity|]. split; [|split; [reflexivity|]].
  - split; [exact (proj1 T2)|]. intro i. cbn [times]. rewrite (proj2 T2 i). rewrite <- app_assoc. cbn [push counter]. replace (stack_path p1) with (stack_path p ++ [n]) by (rewrite <- SP; unfold stack_path; rewrite S1; reflexivity).
    rewrite SP. reflexivity.
  - cbn [counter]. rewrite C2, C1. cbn [push counter size]. fold (sizes l). lia.
Qed.

(** ** Starts *)
Lemma id_app : forall p q, id (p ++ q) = append (id p) (id q).
Proof. induction p as [|n p IH]; intro q; [reflexivity|]. cbn [app id fold_right]. fold (id p). fold (id (p ++ q)). rewrite IH. rewrite !append_assoc. reflexivity. Qed.
Lemma length_append : forall a b : string, String.length (append a b) = (String.length a + String.length b)%nat.
Proof. induction a as [|x a IH]; intro b; [reflexivity|cbn; rewrite IH; reflexivity]. Qed.
Lemma id_longer : forall p n q, id (p ++ n :: q) <> id p.
Proof.
  intros p n q E. apply (f_equal String.length) in E. rewrite id_app, length_append in E. cbn [id fold_right] in E. rewrite !length_append in E. cbn [String.length] in E. lia.
Qed.
Lemma size_pos : forall c, 0 < size c.
Proof.
  induction c as [n l d F] using call_ind2. cbn [size]. assert (0 <= fold_right (fun c n => size c + n) 0 l); [|lia]. induction F; cbn [fold_right]; lia.
Qed.
Lemma sizes_cons : forall c l, sizes (c :: l) = size c + sizes l.
Proof. reflexivity. Qed.
Lemma sizes_nonneg : forall l, 0 <= sizes l.
Proof. induction l as [|c l IH]; [reflexivity|]. rewrite sizes_cons. pose proof (size_pos c). lia. Qed.
Lemma all_made_forall : forall (Q : occurrence -> Prop) l P s, Forall (fun c => forall s, Forall Q (made P s c)) l -> Forall Q (all_made P s l).
Proof. intros Q l P. induction l as [|c l IH]; intros s F; [constructor|]. inversion F; subst. cbn [all_made]. apply Forall_app. split; [auto|apply IH; assumption]. Qed.
Lemma made_range : forall c P s, Forall (fun o => s <= start o < s + size c /\ exists n q, path o = P ++ n :: q) (made P s c).
Proof.
  induction c as [n l d F] using call_ind2. intros P s. rewrite made_call. apply Forall_app. pose proof (size_pos (Call n l d)) as SP. split.
  - cut (forall t, Forall (fun o => t <= start o < t + sizes l /\ exists m q, path o = P ++ m :: q) (all_made (P ++ [n]) t l)).
    { intro G. specialize (G (s + 1)). eapply Forall_impl; [|exact G]. intros o (B & E). split; [|exact E]. cbn [size]. fold (sizes l). lia. }
    clear SP. induction F as [|c l H F IH]; intro t; [constructor|]. cbn [all_made]. apply Forall_app. rewrite sizes_cons. pose proof (size_pos c). pose proof (sizes_nonneg l). split.
    + eapply Forall_impl; [|exact (H (P ++ [n]) t)]. intros o (B & m & q & E). split; [lia|]. exists n, (m :: q). rewrite E, <- app_assoc. reflexivity.
    + eapply Forall_impl; [|exact (IH (t + size c))]. intros o (B & E). split; [lia|exact E].
  - constructor; [|constructor]. cbn [start path]. split; [lia|]. exists n, []. reflexivity.
Qed.
Lemma all_made_range : forall l P s, Forall (fun o => s <= start o < s + sizes l /\ exists n q, path o = P ++ n :: q) (all_made P s l).
Proof.
  induction l as [|c l IH]; intros P s; [constructor|]. cbn [all_made]. apply Forall_app. rewrite sizes_cons. pose proof (size_pos c). pose proof (sizes_nonneg l). split.
  - eapply Forall_impl; [|exact (made_range c P s)]. intros o (B & E). split; [lia|exact E].
  - eapply Forall_impl; [|exact (IH P (s + size c))]. intros o (B & E). split; [lia|exact E].
Qed.
(** starts are distinct; calls listed under the same text end in the order in which they start *)
Definition apart (o o' : occurrence) : Prop := start o <> start o' /\ (id (path o) = id (path o') -> start o < start o').
Lemma fop_app : forall A (Q : A -> A -> Prop) l m, ForallOrdPairs Q l -> ForallOrdPairs Q m -> (forall x y, In x l -> In y m -> Q x y) -> ForallOrdPairs Q (l ++ m).
Proof.
  intros A Q l m F. induction F as [|x l X F IH]; intros G C; [exact G|]. cbn [app]. constructor.
  - apply Forall_app. split; [exact X|]. apply Forall_forall. intros y Y. apply C; [left; reflexivity|exact Y].
  - apply IH; [exact G|]. intros u y U Y. apply C; [right; exact U|exact Y].
Qed.
Lemma all_made_apart : forall l, Forall (fun c => forall P s, ForallOrdPairs apart (made P s c)) l -> forall P s, ForallOrdPairs apart (all_made P s l).
Proof.
  induction 1 as [|c l G _ IH]; intros P s; [constructor|]. cbn [all_made]. apply fop_app; [apply G|apply IH|]. intros x y X Y.
  pose proof (proj1 (Forall_forall _ _) (made_range c P s) x X) as (B & _). pose proof (proj1 (Forall_forall _ _) (all_made_range l P (s + size c)) y Y) as (B' & _). split; intros; lia.
Qed.
Lemma made_apart : forall c P s, ForallOrdPairs apart (made P s c).
Proof.
  induction c as [n l d F] using call_ind2. intros P s. rewrite made_call. apply fop_app; [apply all_made_apart; exact F|constructor; constructor|].
  intros x y X [<-|[]]. pose proof (proj1 (Forall_forall _ _) (all_made_range l (P ++ [n]) (s + 1)) x X) as (B & m & q & E). split; cbn [start path]; [lia|].
  intro I. exfalso. rewrite E in I. exact (id_longer _ _ _ I).
Qed.
Lemma log_apart : forall l, ForallOrdPairs apart (all_made [] 0 l).
Proof. intro l. apply all_made_apart. apply Forall_forall. intros c _. apply made_apart. Qed.
(** whoever is nested has a surrounding call that started before *)
Lemma made_parent : forall c P s o n Q, In o (made P s c) -> path o = P ++ Q ++ [n] -> Q <> [] -> exists o', In o' (made P s c) /\ path o' = P ++ Q /\ start o' < start o.
Proof.
  induction c as [m l d F] using call_ind2. intros P s o n Q. rewrite made_call. intros I E NQ. apply in_app_or in I. destruct I as [I|[<-|[]]].
  2:{ exfalso. cbn [path] in E. apply app_inv_head in E. destruct Q as [|a [|b Q]]; [congruence| |]; discriminate E. }
  pose proof (proj1 (Forall_forall _ _) (all_made_range l (P ++ [m]) (s + 1)) o I) as (B & k & q & E'). rewrite E' in E. rewrite <- app_assoc in E. apply app_inv_head in E.
  destruct Q as [|a Q]; [congruence|]. cbn [app] in E. injection E as <- E. destruct Q as [|b Q].
  - exists (mkOcc (P ++ [m]) s d). split; [apply in_or_app; right; left; reflexivity|]. split; [reflexivity|]. cbn [start]. lia.
  - assert (exists o', In o' (all_made (P ++ [m]) (s + 1) l) /\ path o' = (P ++ [m]) ++ (b :: Q) /\ start o' < start o) as (o' & I' & P' & S').
    { assert (path o = (P ++ [m]) ++ (b :: Q) ++ [n]) as EP by (rewrite E', <- E; reflexivity). clear E E' B. revert I. generalize (s + 1). induction F as [|c l H _ IH]; intros t I; [destruct I|].
      cbn [all_made] in I. apply in_app_or in I. destruct I as [I|I].
      - destruct (H (P ++ [m]) t o n (b :: Q) I EP ltac:(discriminate)) as (o' & I' & R). exists o'. split; [cbn [all_made]; apply in_or_app; left; exact I'|exact R].
      - destruct (IH _ I) as (o' & I' & R). exists o'. split; [cbn [all_made]; apply in_or_app; right; exact I'|exact R]. }
    exists o'. split; [apply in_or_app; left; exact I'|]. split; [rewrite P', <- app_assoc; reflexivity|exact S'].
Qed.
Lemma log_parent : forall l s o n Q, In o (all_made [] s l) -> path o = Q ++ [n] -> Q <> [] -> exists o', In o' (all_made [] s l) /\ path o' = Q /\ start o' < start o.
Proof.
  induction l as [|c l IH]; intros s o n Q I E NQ; [destruct I|]. cbn [all_made] in I. apply in_app_or in I. destruct I as [I|I].
  - destruct (made_parent c [] s o n Q I E NQ) as (o' & I' & R). exists o'. split; [cbn [all_made]; apply in_or_app; left; exact I'|exact R].
  - destruct (IH _ o n Q I E NQ) as (o' & I' & R). exists o'. split; [cbn [all_made]; apply in_or_app; right; exact I'|exact R].
Qed.
Lemma summary_some : forall i L e, summary i L = Some e -> exists o, In o L /\ id (path o) = i /\ insertion e = start o.
Proof.
  intros i L e. unfold summary, at_id. destruct (filter _ L) as [|o r] eqn:F; [discriminate|]. intro E. injection E as <-. exists o.
  assert (In o (filter (fun o => String.eqb (id (path o)) i) L)) as I by (rewrite F; left; reflexivity). apply filter_In in I. destruct I as (I & Q). apply String.eqb_eq in Q. auto.
Qed.
Lemma summary_min : forall i L o, ForallOrdPairs apart L -> In o L -> id (path o) = i -> exists e, summary i L = Some e /\ insertion e <= start o.
Proof.
  intros i L o A. unfold summary, at_id. intros I E. induction A as [|x L X A IH]; [destruct I|]. cbn [filter]. destruct (String.eqb_spec (id (path x)) i) as [Q|Q].
  - eexists. split; [reflexivity|]. cbn [insertion]. destruct I as [->|I]; [lia|]. pose proof (proj1 (Forall_forall _ _) X o I) as (_ & H). rewrite Q, E in H. specialize (H eq_refl). lia.
  - destruct I as [->|I]; [contradiction|]. exact (IH I).
Qed.
Lemma apart_start : forall L o o', ForallOrdPairs apart L -> In o L -> In o' L -> start o = start o' -> o = o'.
Proof.
  intros L o o' A. induction A as [|x L X A IH]; [intros []|]. intros [->|I] [->|I'] E; [reflexivity| | |exact (IH I I' E)];
    [pose proof (proj1 (Forall_forall _ _) X _ I') as (H & _)|pose proof (proj1 (Forall_forall _ _) X _ I) as (H & _)]; exfalso; apply H; [exact E|symmetry; exact E].
Qed.

(** ** The table *)
Lemma run_fresh : forall calls, exists p, run calls fresh = Ret p /\ stack p = [] /\ counter p = sizes calls /\ tracks p (all_made [] 0 calls).
Proof.
  intro calls. destruct (run_good calls (proj2 (Forall_forall _ _) (fun c _ => call_good c)) fresh []) as (p & E & T & S & C); [split; [constructor|intro; reflexivity]|].
  exists p. split; [exact E|]. split; [exact S|]. split; [exact C|exact T].
Qed.
(** For every program of nested calls the timers never touch an empty vector, the stack is empty again at the end, and every listed text
    stands for exactly the calls with that path: their number, the start of the first one, their total duration. *)
Theorem C85_table : forall calls, exists p, run calls fresh = Ret p /\ stack p = [] /\ counter p = sizes calls /\
  forall i, find i (times p) = summary i (all_made [] 0 calls).
Proof. intro calls. destruct (run_fresh calls) as (p & E & S & C & _ & T). exists p. auto. Qed.

(** ** The report *)
Definition before (x y : string * entry) : Prop := insertion (snd x) < insertion (snd y).
Lemma insert_perm : forall x l, Permutation (insert_entry x l) (x :: l).
Proof. intros x. induction l as [|y l IH]; [reflexivity|]. cbn [insert_entry]. destruct (_ <? _); [reflexivity|]. rewrite IH. apply perm_swap. Qed.
Lemma report_perm : forall l, Permutation (report l) l.
Proof. induction l as [|x l IH]; [reflexivity|]. cbn [report]. rewrite insert_perm. apply perm_skip. exact IH. Qed.
Lemma insert_sorted : forall x l, StronglySorted before l -> Forall (fun y => insertion (snd x) <> insertion (snd y)) l -> StronglySorted before (insert_entry x l).
Proof.
  intros x. induction l as [|y l IH]; intros S N; [constructor; constructor|]. cbn [insert_entry]. inversion S as [|? ? S' F]; subst. inversion N as [|? ? Nx N']; subst.
  destruct (Z.ltb_spec (insertion (snd x)) (insertion (snd y))) as [L|L].
  - constructor; [exact S|]. constructor; [exact L|]. eapply Forall_impl; [|exact F]. unfold before. intros z Z. cbv beta in Z. lia.
  - constructor; [exact (IH S' N')|]. eapply Permutation_Forall; [symmetry; apply insert_perm|]. constructor; [unfold before; lia|exact F].
Qed.
Lemma report_sorted : forall l, NoDup (map (fun x => insertion (snd x)) l) -> StronglySorted before (report l).
Proof.
  induction l as [|x l IH]; intro N; [constructor|]. cbn [map] in N. inversion N as [|? ? Nx N']; subst. cbn [report]. apply insert_sorted; [exact (IH N')|].
  eapply Permutation_Forall; [symmetry; apply report_perm|]. apply Forall_forall. intros y Y E. apply Nx. rewrite E. exact (in_map (fun x => insertion (snd x)) _ _ Y).
Qed.
Lemma sorted_unique : forall l m, StronglySorted before l -> StronglySorted before m -> Permutation l m -> l = m.
Proof.
  induction l as [|x l IH]; intros m S M P; [apply Permutation_nil in P; congruence|]. destruct m as [|y m]; [symmetry in P; apply Permutation_nil in P; discriminate|].
  inversion S as [|? ? S' F]; subst. inversion M as [|? ? M' G]; subst.
  assert (x = y) as ->.
  { assert (In x (y :: m)) as [->|X] by (apply (Permutation_in x P); left; reflexivity); [reflexivity|].
    assert (In y (x :: l)) as [->|Y] by (apply (Permutation_in y (Permutation_sym P)); left; reflexivity); [reflexivity|].
    pose proof (proj1 (Forall_forall _ _) F y Y) as A. pose proof (proj1 (Forall_forall _ _) G x X) as B. unfold before in *. lia. }
  f_equal. apply IH; [exact S'|exact M'|]. exact (Permutation_cons_inv P).
Qed.
Lemma nodup_map_inj : forall A B (f : A -> B) l, NoDup l -> (forall x y, In x l -> In y l -> f x = f y -> x = y) -> NoDup (map f l).
Proof.
  intros A B f l N. induction N as [|x l X N IH]; intro J; [constructor|]. cbn [map]. constructor.
  - intro I. apply in_map_iff in I. destruct I as (y & E & Y). assert (x = y) by (apply J; [left; reflexivity|right; exact Y|symmetry; exact E]). subst. contradiction.
  - apply IH. intros y z Y Z. apply J; right; assumption.
Qed.
Lemma insertions_distinct : forall p L, tracks p L -> ForallOrdPairs apart L -> NoDup (map (fun x => insertion (snd x)) (times p)).
Proof.
  intros p L (N & T) A. apply nodup_map_inj; [exact (NoDup_map_inv _ _ N)|]. intros [i e] [j f] I J E. cbn [snd] in E.
  pose proof (find_in _ _ _ N I) as Fi. pose proof (find_in _ _ _ N J) as Fj. pose proof Fi as Gi. pose proof Fj as Gj. rewrite T in Gi, Gj.
  destruct (summary_some _ _ _ Gi) as (o & O1 & O2 & O3). destruct (summary_some _ _ _ Gj) as (o' & Q1 & Q2 & Q3).
  assert (o = o') by (apply (apart_start L); [exact A|exact O1|exact Q1|congruence]). subst o'. assert (i = j) by congruence. assert (e = f) by congruence. congruence.
Qed.
(** Whatever order the hash map is iterated in, the report lists every text once, in the order in which the first call of each started;
    so there is only one possible report. *)
Theorem C85_report : forall calls p, run calls fresh = Ret p -> forall entries, Permutation entries (times p) ->
  StronglySorted (fun x y => insertion (snd x) < insertion (snd y)) (report entries) /\ NoDup (map fst (report entries)) /\
  (forall i e, In (i, e) (report entries) <-> summary i (all_made [] 0 calls) = Some e) /\
  (forall entries', Permutation entries' (times p) -> report entries' = report entries).
Proof.
  intros calls p E entries P. destruct (run_fresh calls) as (q & E' & _ & _ & T). rewrite E in E'. injection E' as <-.
  pose proof (insertions_distinct _ _ T (log_apart calls)) as ND. assert (forall l, Permutation l (times p) -> StronglySorted before (report l)) as S.
  { intros l Q. apply report_sorted. eapply Permutation_NoDup; [|exact ND]. apply Permutation_map. symmetry. exact Q. }
  assert (Permutation (report entries) (times p)) as RP by (rewrite report_perm; exact P). destruct T as (N & T).
  split; [exact (S _ P)|]. split; [eapply Permutation_NoDup; [|exact N]; apply Permutation_map; symmetry; exact RP|]. split.
  - intros i e. rewrite <- T. split.
    + intro I. apply find_in; [exact N|]. exact (Permutation_in _ RP I).
    + intro F. apply (Permutation_in _ (Permutation_sym RP)). clear - F. induction (times p) as [|[k x] l IH]; [discriminate|]. cbn [find] in F.
      destruct (String.eqb_spec k i) as [->|]; [injection F as ->; left; reflexivity|right; exact (IH F)].
  - intros entries' P'. apply sorted_unique; [exact (S _ P')|exact (S _ P)|]. rewrite !report_perm. transitivity (times p); [exact P'|symmetry; exact P].
Qed.
(** A nested call is listed after the call around it: each listed text belongs to a path, and the path without its last name, if not
    empty, is listed with a smaller insertion and so earlier in the report. *)
Theorem C85_parent_first : forall calls p, run calls fresh = Ret p -> forall i e, find i (times p) = Some e ->
  exists P n, i = id (P ++ [n]) /\ (P <> [] -> exists e', find (id P) (times p) = Some e' /\ insertion e' < insertion e).
Proof.
  intros calls p E i e F. destruct (run_fresh calls) as (q & E' & _ & _ & N & T). rewrite E in E'. injection E' as <-. rewrite T in F.
  destruct (summary_some _ _ _ F) as (o & O1 & O2 & O3). pose proof (proj1 (Forall_forall _ _) (all_made_range calls [] 0) o O1) as (_ & m & q & Eq). cbn [app] in Eq.
  destruct (exists_last (l := path o)) as (P & n & EP); [rewrite Eq; discriminate|]. exists P, n. split; [congruence|]. intro NP.
  destruct (log_parent calls 0 o n P O1 EP NP) as (o' & I' & P' & S'). destruct (summary_min (id P) _ o' (log_apart calls) I' (f_equal id P')) as (e' & E1 & E2).
  exists e'. split; [rewrite T; exact E1|]. lia.
Qed.

(** ** Examples *)
(** a calls b twice, then c calls b; then a again *)
Definition ex_calls : list call :=
  [Call "a" [Call "b" [] 5; Call "b" [] 7] 20; Call "c" [Call "b" [] 1] 4; Call "a" [] 3].
Example run_ex : exists p, run ex_calls fresh = Ret p /\
  report (times p) = [(" > a"%string, mkEntry 2 0 23); (" > a > b"%string, mkEntry 2 1 12); (" > c"%string, mkEntry 1 3 4); (" > c > b"%string, mkEntry 1 4 1)].
Proof. eexists. split; reflexivity. Qed.

Print Assumptions C85_table.
Print Assumptions C85_report.
Print Assumptions C85_parent_first.
