(** Reflective arithmetic on sums of monomials c delta^a h^b v_k1 ... v_kn with integer coefficients. *)
From Coq Require Import ZArith List Bool Lia.
From Verif Require Import M_TableData.
Import ListNotations.

(** c * delta^td * h^th * prod v *)
Inductive term := Te (c : Z) (td th : nat) (vs : list nat).
Definition tdeg (t : term) : nat := let (_, a, b, _) := t in (a + b)%nat.
Definition tsc (k : Z) (t : term) : term := let (c, a, b, l) := t in Te (k * c) a b l.

(** ---- normalisation: polynomials as tries; node = constant + x_i * one + (polynomial in x_{i+1}, ...) *)
Inductive pol := P0 | PN (c : Z) (one next : pol).
Fixpoint psingle (c : Z) (p : list bool) : pol :=
  match p with [] => PN c P0 P0 | true :: p' => PN 0 (psingle c p') P0 | false :: p' => PN 0 P0 (psingle c p') end.
Fixpoint pins (c : Z) (p : list bool) (q : pol) : pol :=
  match p, q with
  | _, P0 => psingle c p
  | [], PN d o n => PN (d + c) o n
  | true :: p', PN d o n => PN d (pins c p' o) n
  | false :: p', PN d o n => PN d o (pins c p' n)
  end.
Fixpoint pzero (q : pol) : bool := match q with P0 => true | PN c o n => Z.eqb c 0 && pzero o && pzero n end.

Fixpoint reps (b : bool) (n : nat) (p : list bool) : list bool := match n with O => p | S k => b :: reps b k p end.
(** path of a sorted list of v indices, starting at variable number i (v_k is variable k+1) *)
Fixpoint vpath (i : nat) (l : list nat) : option (list bool) :=
  match l with
  | [] => Some []
  | k :: r => if (S k <? i)%nat then None
              else match vpath (S k) r with None => None | Some p => Some (reps false (S k - i) (true :: p)) end
  end.
Definition tpath (t : term) : option (list bool) :=
  let (_, a, b, l) := t in
  match vpath 2 l with None => None | Some p => Some (reps true a (false :: reps true b (false :: p))) end.
Definition tcoef (t : term) : Z := let (c, _, _, _) := t in c.
Fixpoint norm (l : list term) (q : pol) : option pol :=
  match l with
  | [] => Some q
  | t :: r => match tpath t with None => None | Some p => norm r (pins (tcoef t) p q) end
  end.
Definition is_zero (l : list term) : bool := match norm l P0 with None => false | Some q => pzero q end.

(** insertion of an index in a sorted list *)
Fixpoint ins (k : nat) (l : list nat) : list nat :=
  match l with [] => [k] | a :: r => if (k <=? a)%nat then k :: l else a :: ins k r end.
Definition tmulk (x y : term) : term :=
  let (c, a, b, l) := x in let (d, a', b', m) := y in Te (c * d) (a + a') (b + b') (fold_right ins l m).
Definition lmul (x y : list term) : list term := flat_map (fun s => map (tmulk s) y) x.

(** d/d delta, division by delta, (delta d/d delta - i) / delta^2 *)
Definition td1 (t : term) : term := let (c, a, b, l) := t in Te (c * Z.of_nat a) (a - 1) b l.
Definition tdiv1 (t : term) : term := let (c, a, b, l) := t in Te c (a - 1) b l.
Definition tdiv1_ok (t : term) : bool := let (c, a, _, _) := t in (1 <=? a)%nat || Z.eqb c 0.
Definition tB (i : nat) (t : term) : term := let (c, a, b, l) := t in Te (c * (Z.of_nat a - Z.of_nat i)) (a - 2) b l.
Definition tB_ok (i : nat) (t : term) : bool :=
  let (c, a, _, _) := t in (2 <=? a)%nat || Z.eqb (c * (Z.of_nat a - Z.of_nat i)) 0.

(** ---- the tables as terms, scaled by the common denominator *)
Definition DD : Z := 2075673600.
Inductive ptr := PL | PB (l : ptr) (v : Z) (r : ptr).
Fixpoint plook (t : ptr) (p : positive) : Z :=
  match t, p with
  | PL, _ => 0%Z
  | PB _ v _, xH => v
  | PB l _ _, xO p' => plook l p'
  | PB _ _ r, xI p' => plook r p'
  end.
Fixpoint pput (t : ptr) (p : positive) (v : Z) : ptr :=
  match p, t with
  | xH, PL => PB PL v PL
  | xH, PB l _ r => PB l v r
  | xO p', PL => PB (pput PL p' v) 0 PL
  | xO p', PB l w r => PB (pput l p' v) w r
  | xI p', PL => PB PL 0 (pput PL p' v)
  | xI p', PB l w r => PB l w (pput r p' v)
  end.
Definition quot (m : ptr) (d : positive) : Z := plook m d.
Definition den_ok (m : ptr) (t : tterm) : bool := let (_, d, _) := t in Z.eqb (plook m d * Zpos d) DD.

(** terms of delta^j * entry *)
Fixpoint flat_row (m : ptr) (j p : nat) (r : list tterm) : list term :=
  match r with [] => [] | Mo n d l :: r' => Te (n * plook m d) j p l :: flat_row m j p r' end.
Fixpoint flat_entry (m : ptr) (j p : nat) (e : hentry) : list term :=
  match e with [] => [] | r :: e' => flat_row m j p r ++ flat_entry m j (S p) e' end.
Fixpoint flat_cols (m : ptr) (q j : nat) (cols : list (list hentry)) : list term :=
  match cols with [] => [] | c :: r => flat_entry m j 0 (nth q c []) ++ flat_cols m q (S j) r end.

(** quotients DD / d for the denominators of the tables *)
Definition reg_term (m : ptr) (t : tterm) : ptr :=
  let (_, d, _) := t in if Z.eqb (plook m d) 0 then pput m d (DD / Zpos d) else m.
Definition reg_entry (m : ptr) (e : hentry) : ptr := fold_left (fun m r => fold_left reg_term r m) e m.
Definition reg_cols (m : ptr) (c : list (list hentry)) : ptr := fold_left (fun m r => fold_left reg_entry r m) c m.
Definition dens_ok_entry (m : ptr) (e : hentry) : bool := forallb (forallb (den_ok m)) e.
Definition dens_ok_cols (m : ptr) (c : list (list hentry)) : bool := forallb (forallb (dens_ok_entry m)) c.

(** ---- the residual of y'' = (V - E) y, coefficient of eta_i *)
(** [D k]: terms of v_k h^k L_k(delta/h); [low n x]: those of order < n *)
Definition low (n : nat) (l : list term) : list term := filter (fun t => (tdeg t <? n)%nat) l.
Definition high (n : nat) (l : list term) : list term := filter (fun t => negb (tdeg t <? n)%nat) l.
Definition lowprod (n : nat) (D : nat -> list term) (ks : list nat) (a : list term) : list term :=
  flat_map (fun k => map (tsc (-1)) (lmul (low (n - k) a) (D k))) ks.
Definition highprod (n : nat) (D : nat -> list term) (ks : list nat) (a : list term) : list term :=
  flat_map (fun k => map (tsc (-1)) (lmul (high (n - k) a) (D k))) ks.
(** a_i'' + 2 b_{i+1} - 2 (2i-1) b_i *)
Definition resid_diff (i : nat) (a b bn : list term) : list term :=
  map td1 (map td1 a) ++ map (tsc 2) bn ++ map (tsc (-2 * (2 * Z.of_nat i - 1))) b.
Definition resid_low (n : nat) (D : nat -> list term) (ks : list nat) (i : nat) (a b bn : list term) : list term :=
  low n (resid_diff i a b bn) ++ lowprod n D ks a.
Definition resid_high (n : nat) (D : nat -> list term) (ks : list nat) (i : nat) (a b bn : list term) : list term :=
  high n (resid_diff i a b bn) ++ highprod n D ks a.
Definition Bs (i : nat) (a : list term) : list term := filter (fun t => negb (Z.eqb (tcoef t) 0)) (map (tB i) a).
(** all the coefficients a_i, a_{i+1}, ... *)
Fixpoint resid_ok (n : nat) (D : nat -> list term) (ks : list nat) (i : nat) (b : list term) (l : list (list term)) : bool :=
  match l with
  | [] => true
  | a :: r =>
    let bn := match r with [] => [] | a' :: _ => Bs (S i) a' end in
    forallb (tB_ok i) a && is_zero (resid_low n D ks i a b bn) && resid_ok n D ks (S i) bn r
  end.
(** the terms of order >= n left over *)
Fixpoint resid_highs (n : nat) (D : nat -> list term) (ks : list nat) (i : nat) (b : list term) (l : list (list term)) : list (list term) :=
  match l with
  | [] => []
  | a :: r =>
    let bn := match r with [] => [] | a' :: _ => Bs (S i) a' end in
    resid_high n D ks i a b bn :: resid_highs n D ks (S i) bn r
  end.

(** ---- the derivative rows: a_i' + c_{i+1} - (2i-1) c_i - d_i with c_i = a_i / delta *)
Definition der_diff (i : nat) (a c cn d : list term) : list term :=
  map td1 a ++ cn ++ map (tsc (- (2 * Z.of_nat i - 1))) c ++ map (tsc (-1)) d.
Fixpoint der_ok (n i : nat) (c : list term) (l m : list (list term)) : bool :=
  match l, m with
  | [], [] => true
  | a :: r, d :: s =>
    let cn := match r with [] => [] | a' :: _ => map tdiv1 a' end in
    ((i =? 0)%nat || forallb tdiv1_ok a) && is_zero (low n (der_diff i a c cn d)) && der_ok n (S i) cn r s
  | _, _ => false
  end.
Fixpoint der_highs (n i : nat) (c : list term) (l m : list (list term)) : list (list term) :=
  match l, m with
  | a :: r, d :: s =>
    let cn := match r with [] => [] | a' :: _ => map tdiv1 a' end in
    high n (der_diff i a c cn d) :: der_highs n (S i) cn r s
  | _, _ => []
  end.

(** ---- the full step against the partial step at delta = h *)
Definition tcollapse (t : term) : term := let (c, a, b, l) := t in Te c 0 (a + b) l.
Definition uses_only (ok : term -> bool) (l : list term) : bool := forallb ok l.
Definition full_diff (a d : list term) : list term := map tcollapse a ++ map (tsc (-1)) d.
