(** Sectors, sector lookup and the two sector builders.

    Models /repo/matslise/util/find_sector.h, /repo/matslise/util/sectorbuilder.cpp,
    the lookup helper of /repo/matslise/matslise/matslise.cpp:228-238 and
    /repo/matslise/matslise/matslise.cpp:81-88. *)
From Coq Require Import String ZArith QArith List Bool.
From Verif Require Import Base.
Import ListNotations.
Open Scope Z_scope.

(** matslise/matslise.h:202-211 (Matslise::Sector) and matslise/matscs.h:70-81
    (Matscs::Sector): only [min], [max], [direction] matter for this file; all other
    fields (vs, t_coeff, ...) are the payload [P]. *)
Record sector (T P : Type) := mkSector { smin : T; smax : T; sdir : dir; spay : P }.
Arguments mkSector {T P}. Arguments smin {T P}. Arguments smax {T P}.
Arguments sdir {T P}. Arguments spay {T P}.

Section Model.
Context {T : Type} `{Scalar T} {P : Type}.
Notation sec := (sector T P).

(** matslise/matslise.h:219-221 and matslise/matscs.h:92-94: [point <= max && point >= min]. *)
Definition contains (s : sec) (p : T) : bool := sle p (smax s) && sle (smin s) p.

(** matslise/matslise.h:22-29 Domain::contains: [min <= x && x <= max]. *)
Definition dom_contains (lo hi x : T) : bool := sle lo x && sle x hi.

(** matslise/util/find_sector.h:5-17. [c = a + (b - a) / 2] with C++ int division
    (truncation); vector accesses outside the list are undefined behaviour. *)
Fixpoint find_sector_loop (fuel : nat) (secs : list sec) (p : T) (a b : Z) : res Z :=
  match fuel with
  | O => Fuel
  | S f =>
      let c := a + Z.quot (b - a) 2 in
      do s <- vget secs c;
      if contains s p then Ret c
      else if c =? a then Ret (-1)
      else if slt p (smin s) then find_sector_loop f secs p a c
      else find_sector_loop f secs p c b
  end.
Definition find_sector (fuel : nat) (secs : list sec) (p : T) : res Z :=
  find_sector_loop fuel secs p 0 (Z.of_nat (length secs)).

(** matslise/matslise/matslise.cpp:228-238 findSector (iterator version): [a], [b] are
    iterator positions; dereferencing outside the vector is undefined behaviour. *)
Fixpoint findSectorIt (fuel : nat) (secs : list sec) (x : T) (a b : Z) : res Z :=
  if b - a <=? 1 then Ret a else
  match fuel with
  | O => Fuel
  | S f =>
      let c := a + Z.quot (b - a) 2 in
      do s <- vget secs c;
      if slt x (smin s) then findSectorIt f secs x a c else findSectorIt f secs x c b
  end.

(** matslise/matslise/matslise.cpp:81-88 estimatePotentialMinimum; [v0] reads [vs[0]].
    Dereferencing [begin()] of an empty vector is undefined behaviour. *)
Definition estimatePotentialMinimum (v0 : sec -> T) (secs : list sec) : res T :=
  match secs with
  | [] => UB "dereference of begin() of an empty vector"
  | s :: r => Ret (fold_left (fun m s' => std_min m (v0 s')) r (v0 s))
  end.

(** ** Builders *)
Section Builders.
(** [mk lo hi d]: the Sector constructor (new Sector(problem, lo, hi, d)),
    matslise/matslise/sector.cpp:22-34; the potential is a pure function.
    [err]: Sector::error(), matslise/matslise/sector.cpp:231-250.
    [cmp a b]: Sector::compare(a, b), matslise/matslise.h:246-248. *)
Variable pay : T -> T -> dir -> P.
Variable err : sec -> T.
Variable cmp : sec -> sec -> bool.
Definition mk (lo hi : T) (d : dir) : sec := mkSector lo hi d (pay lo hi d).

(** vector::operator[] assignment. *)
Fixpoint set_nth {A} (l : list A) (i : nat) (v : A) : list A :=
  match l, i with
  | [], _ => []
  | _ :: r, O => v :: r
  | x :: r, S j => x :: set_nth r j v
  end.

(** matslise/util/sectorbuilder.cpp:40-48, the [while (i + 1 != j)] loop.  The vector of
    unique_ptr holds null entries ([None]); dereferencing one is undefined behaviour. *)
Fixpoint uniform_loop (fuel : nat) (lo h : T) (v : list (option sec)) (i j : Z)
  : res (list (option sec) * Z) :=
  match fuel with
  | O => Fuel
  | S f =>
      if i + 1 =? j then Ret (v, i) else
      do sj <- vget v j;
      do si <- vget v i;
      match sj, si with
      | Some sj, Some si =>
          if cmp sj si then
            let i := i + 1 in
            if i <? Z.of_nat (length v) then
              uniform_loop f lo h
                (set_nth v (Z.to_nat i)
                   (Some (mk (sadd lo (smul (sofZ i) h)) (sadd lo (smul (sofZ (i + 1)) h)) Dfwd))) i j
            else UB "vector index >= size"
          else
            let j := j - 1 in
            if 0 <=? j then
              uniform_loop f lo h
                (set_nth v (Z.to_nat j)
                   (Some (mk (sadd lo (smul (sofZ j) h)) (sadd lo (smul (sofZ (j + 1)) h)) Dbwd))) i j
            else UB "vector index < 0"
      | _, _ => UB "null sector dereferenced"
      end
  end.

(** matslise/util/sectorbuilder.cpp:23-53 UniformSectorBuilder::operator().
    [sectorCount] is an int; resize with a non-positive count followed by sectors[0]
    is undefined behaviour (a negative count throws length_error in vector::resize). *)
Definition uniform_build (fuel : nat) (n : Z) (lo hi : T) : res (list sec * Z) :=
  let h := sdiv (ssub hi lo) (sofZ n) in
  if n <? 0 then Throw "std::length_error"
  else if n =? 0 then UB "sectors[0] of an empty vector"
  else if n =? 1 then Ret ([mk lo hi Dfwd], 0)
  else
    let v := repeat None (Z.to_nat n) in
    let v := set_nth v 0 (Some (mk lo (sadd lo h) Dfwd)) in
    let v := set_nth v (Z.to_nat (n - 1)) (Some (mk (sadd lo (smul (sofZ (n - 1)) h)) hi Dbwd)) in
    do r <- uniform_loop fuel lo h v 0 (n - 1);
    let (v, i) := r in
    match (fix all (l : list (option sec)) : option (list sec) :=
             match l with
             | [] => Some []
             | None :: _ => None
             | Some s :: r => match all r with Some t => Some (s :: t) | None => None end
             end) v with
    | Some l => Ret (l, i)
    | None => UB "null sector left in the vector"
    end.

(** [powf tol e] = pow(tolerance / error, 1. / (order - 1)),
    matslise/util/sectorbuilder.cpp:75 and 106. *)
Variable powf : T -> T -> T.
Variable tol : T.

Definition c_1em3 : T := sofQ (1 # 1000).
Definition c_p1 : T := sofQ (1 # 10).
Definition c_p99 : T := sofQ (99 # 100).

(** matslise/util/sectorbuilder.cpp:73-86, the refinement (shrinking) loop; state:
    steps, h, xmin, xmax, current sector; every sector constructed is appended to [log]
    (observation only). *)
Fixpoint shrink_loop (fuel : nat) (d : dir) (steps : Z) (h xmin xmax : T) (s : sec) (log : list sec)
  : res (Z * T * T * T * sec * list sec) :=
  let e := err s in
  if slt tol e && (steps <? 10) && slt c_1em3 h then
    match fuel with
    | O => Fuel
    | S f =>
        let h := smul h (std_max c_p1 (smul c_p99 (powf tol e))) in
        let xmax' := match d with Dfwd => sadd xmin h | _ => xmax end in
        let xmin' := match d with Dfwd => xmin | _ => ssub xmax h end in
        let s' := mk xmin' xmax' d in
        shrink_loop f d (steps + 1) (ssub xmax' xmin') xmin' xmax' s' (log ++ [s'])
    end
  else Ret (steps, h, xmin, xmax, s, log).

(** matslise/util/sectorbuilder.cpp:99-130, the growing loop, executed only when no
    shrinking took place ([steps == 0]).  Returns the kept sector and the new [h].
    The [if constexpr(Sector::expensive)] branch (lines 87-96) is dead: [expensive] is
    false for both sector classes (matslise.h:204, matscs.h:73). *)
Fixpoint grow_loop (fuel : nat) (d : dir) (left right : T) (steps : Z) (h xmin xmax : T) (e : T)
    (s : sec) (log : list sec) : res (T * sec * list sec) :=
  if slt e (sdiv tol (sofZ 2)) && (steps <? 10) && negb (seqb h (ssub right left)) then
    match fuel with
    | O => Fuel
    | S f =>
        let '(xmin', xmax') :=
          if sle e (sofZ 0) then (left, right)
          else
            let h := smul h (powf tol e) in
            match d with
            | Dfwd => let x := sadd xmin h in (xmin, if slt right x then right else x)
            | _ => let x := ssub xmax h in ((if slt x left then left else x), xmax)
            end in
        let h := ssub xmax' xmin' in
        let s' := mk xmin' xmax' d in
        let e' := err s' in
        if slt tol e' then Ret (ssub (smax s) (smin s), s, log ++ [s'])
        else grow_loop f d left right (steps + 1) h xmin' xmax' e' s' (log ++ [s'])
    end
  else Ret (h, s, log).

(** matslise/util/sectorbuilder.cpp:55-135 automaticNextSector; [h] is passed by
    reference: the new value is returned. Both loops are limited to 10 steps by the code
    itself, so the fuel 11 below is never exhausted (proved). *)
Definition next_sector (h left right : T) (d : dir) (log : list sec) : res (sec * T * list sec) :=
  let xmin := match d with Dfwd => left | _ => ssub right h end in
  let xmax := match d with Dfwd => sadd left h | _ => right end in
  let '(xmin, xmax) :=
    match d with
    | Dfwd => (xmin, if slt right xmax then right else xmax)
    | Dbwd => ((if slt xmin left then left else xmin), xmax)
    | Dnone => (xmin, xmax)
    end in
  let h := ssub xmax xmin in
  let s := mk xmin xmax d in
  do r <- shrink_loop 11 d 0 h xmin xmax s (log ++ [s]);
  let '(steps, h, xmin, xmax, s, log) := r in
  if steps =? 0 then
    do g <- grow_loop 11 d left right 0 h xmin xmax (err s) s log;
    let '(h, s, log) := g in Ret (s, h, log)
  else Ret (s, h, log).

(** matslise/util/sectorbuilder.cpp:151-156 nextForwardJump / nextBackwardJump: the
    iterators are modelled by the lists of jumps not yet passed. *)
Definition next_fwd (hi : T) (fj : list T) : T := match fj with [] => hi | j :: _ => j end.
Definition next_bwd (lo : T) (bj : list T) : T := match bj with [] => lo | j :: _ => j end.

(** [++forwardJumpPosition] past [end()] is undefined behaviour. *)
Definition pop {A} (l : list A) : res (list A) :=
  match l with [] => UB "iterator incremented past the end" | _ :: r => Ret r end.

(** matslise/util/sectorbuilder.cpp:165-181 main loop; [fs], [bs] are the vectors
    [forward], [backward] in reverse order (head = back()). *)
Fixpoint auto_loop (fuel : nat) (lo hi : T) (fs bs : list sec) (f0 b0 : sec) (hf hb : T)
    (fj bj : list T) (log : list sec) : res (list sec * list sec * list sec) :=
  if seqb (smax f0) (smin b0) then Ret (f0 :: fs, b0 :: bs, log) else
  match fuel with
  | O => Fuel
  | S fuel =>
      if cmp b0 f0 then
        do fj <- (if seqb (smax f0) (next_fwd hi fj) then pop fj else Ret fj);
        do r <- next_sector hf (smax f0) (std_min (smin b0) (next_fwd hi fj)) Dfwd log;
        let '(s, hf, log) := r in
        auto_loop fuel lo hi (f0 :: fs) bs s b0 hf hb fj bj log
      else
        do bj <- (if seqb (smin b0) (next_bwd lo bj) then pop bj else Ret bj);
        do r <- next_sector hb (std_max (smax f0) (next_bwd lo bj)) (smin b0) Dbwd log;
        let '(s, hb, log) := r in
        auto_loop fuel lo hi fs (b0 :: bs) f0 s hf hb fj bj log
  end.

Definition c_midmax : T := sofQ (4956864123 # 10000000000).
Definition c_midmin : T := sofQ (5043135877 # 10000000000).
Definition c_p33 : T := sofQ (33 # 100).

(** matslise/util/sectorbuilder.cpp:137-186 AutomaticSectorBuilder::operator().  Returns
    the sectors, matchIndex and the list of all sectors ever constructed. *)
Definition auto_build (fuel : nat) (jumps : list T) (lo hi : T) : res (list sec * Z * list sec) :=
  let mid := sadd (smul c_midmax hi) (smul c_midmin lo) in
  let h := smul c_p33 (ssub hi lo) in
  let fj := jumps in
  let bj := rev jumps in
  do r <- next_sector h lo (std_min mid (next_fwd hi fj)) Dfwd [];
  let '(f0, hf, log) := r in
  do r <- next_sector h (std_max mid (next_bwd lo bj)) hi Dbwd log;
  let '(b0, hb, log) := r in
  do r <- auto_loop fuel lo hi [] [] f0 b0 hf hb fj bj log;
  let '(fs, bs, log) := r in
  Ret (rev fs ++ bs, Z.of_nat (length fs) - 1, log).

(** matslise/pyslise/pyslise.cpp:132-140: jumps outside (xmin, xmax) are dropped and the
    rest is sorted (std::sort is modelled by insertion sort, which produces the same
    sequence for a strict weak order on scalars). *)
Fixpoint insert_sorted (x : T) (l : list T) : list T :=
  match l with [] => [x] | y :: r => if slt x y then x :: l else y :: insert_sorted x r end.
Definition sort_jumps (l : list T) : list T := fold_right insert_sorted [] l.
Definition py_jumps (lo hi : T) (jumps : list T) : list T :=
  sort_jumps (filter (fun j => slt lo j && slt j hi) jumps).
End Builders.
End Model.
