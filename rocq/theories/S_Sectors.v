(** Specification vocabulary for sector lists, independent of the model's algorithms. *)
From Coq Require Import ZArith List.
From Verif Require Import Base M_Sectors.
Import ListNotations.
Open Scope Z_scope.

Section Spec.
Context {T P : Type}.

(** [chain lo hi l]: the sectors of [l] lie end to end: the first starts at [lo], every
    next one starts exactly where its predecessor ends, the last ends at [hi].  Equality is
    identity of values. *)
Fixpoint chain (lo hi : T) (l : list (sector T P)) : Prop :=
  match l with
  | [] => lo = hi
  | s :: r => smin s = lo /\ chain (smax s) hi r
  end.

(** A sector list of a problem on [lo, hi]. *)
Definition partition (lo hi : T) (l : list (sector T P)) : Prop := l <> [] /\ chain lo hi l.

(** Sectors 0..m go forward, the others backward. *)
Definition directions_ok (l : list (sector T P)) (m : Z) : Prop :=
  forall k s, nth_error l k = Some s -> sdir s = if Z.of_nat k <=? m then Dfwd else Dbwd.

(** [x] is an end point of some sector. *)
Definition is_boundary (x : T) (l : list (sector T P)) : Prop :=
  exists s, In s l /\ (smin s = x \/ smax s = x).
End Spec.
