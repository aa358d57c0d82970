(** The profiler: timers that live in nested scopes.  Models /repo/matslise/util/scoped_timer.h.
    Simplifications: counters and durations are unbounded integers (long long, nanoseconds); the hash map is an association list, its
    iteration order is left open (see [report]); the clock's readings are given with the calls; a single thread.  The text of the report
    (number formatting) is left out. *)
From Coq Require Import String ZArith List Bool.
From Verif Require Import Base.
Import ListNotations.
Open Scope Z_scope.

(** scoped_timer.h:27-31 ProfileEntry. *)
Record entry := mkEntry { count : Z; insertion : Z; time : Z }.
(** scoped_timer.h:19, 36-37: insertion_counter, executionTimes, stack (the head of the list is the back of the vector). *)
Record profiler := mkProfiler { counter : Z; times : list (string * entry); stack : list (string * Z) }.
Definition fresh : profiler := mkProfiler 0 [] [].
(** scoped_timer.h:50-52 push. *)
Definition push (name : string) (p : profiler) : profiler := mkProfiler (counter p + 1) (times p) ((name, counter p) :: stack p).
(** scoped_timer.h:54-56 pop. *)
Definition pop (p : profiler) : res profiler :=
  match stack p with [] => UB "pop_back of an empty vector" | _ :: s => Ret (mkProfiler (counter p) (times p) s) end.
(** scoped_timer.h:58-66 getIdentifier. *)
Definition identifier (p : profiler) : string :=
  match stack p with
  | [] => ">"
  | _ => fold_left (fun id call => append id (append " > " (fst call))) (rev (stack p)) ""%string
  end.
(** executionTimes.find *)
Fixpoint find (id : string) (l : list (string * entry)) : option entry :=
  match l with [] => None | (i, e) :: r => if String.eqb i id then Some e else find id r end.
Fixpoint update (id : string) (f : entry -> entry) (l : list (string * entry)) : list (string * entry) :=
  match l with [] => [] | (i, e) :: r => if String.eqb i id then (i, f e) :: r else (i, e) :: update id f r end.
(** scoped_timer.h:68-78 addTime. *)
Definition addTime (t : Z) (p : profiler) : res profiler :=
  let id := identifier p in
  match find id (times p) with
  | None => match stack p with
            | [] => UB "back() of an empty vector"
            | (_, i) :: _ => Ret (mkProfiler (counter p) (times p ++ [(id, mkEntry 1 i t)]) (stack p))
            end
  | Some _ => Ret (mkProfiler (counter p) (update id (fun e => mkEntry (count e + 1) (insertion e) (time e + t)) (times p)) (stack p))
  end.
(** A timed call: its name, the timed calls made inside, the measured duration.  It may return or throw: the destructor of ScopedTimer
    runs in both cases. *)
Inductive call := Call (name : string) (inner : list call) (duration : Z).
(** scoped_timer.h:97-111 ScopedTimer: constructor, the calls in its scope, destructor. *)
Fixpoint run_call (c : call) (p : profiler) : res profiler :=
  match c with
  | Call name inner d =>
      do p1 <- (fix go (l : list call) (p : profiler) : res profiler :=
                  match l with [] => Ret p | c :: r => do p' <- run_call c p; go r p' end) inner (push name p);
      do p2 <- addTime d p1;
      pop p2
  end.
Fixpoint run (l : list call) (p : profiler) : res profiler :=
  match l with [] => Ret p | c :: r => do p' <- run_call c p; run r p' end.
(** scoped_timer.h:80-92 report: the entries in increasing order of insertion; [entries] is what the iteration over the hash map gives
    (any order), insertion sort for std::sort. *)
Fixpoint insert_entry (x : string * entry) (l : list (string * entry)) : list (string * entry) :=
  match l with [] => [x] | y :: r => if insertion (snd x) <? insertion (snd y) then x :: y :: r else y :: insert_entry x r end.
Fixpoint report (entries : list (string * entry)) : list (string * entry) :=
  match entries with [] => [] | x :: r => insert_entry x (report r) end.
