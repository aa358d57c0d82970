(** The Python constructor of coupled problems.

    Models /repo/matslise/pyslise/pyscs.cpp:12-35 (the constructor's argument checks and its choice of the sector
    builder), on top of the builders of M_Sectors.  The Matscs constructor itself calls the builder on [xmin, xmax]
    (matscs.h:35-42); V, the dimension and the step matrices only enter through the builder's oracles. *)
From Coq Require Import String ZArith List Bool.
From Verif Require Import Base M_Sectors.
Import ListNotations.
Open Scope Z_scope.

Section Pyscs.
Context {T : Type} `{Scalar T} {P : Type}.
Variable pay : T -> T -> dir -> P.
Variable err : sector T P -> T.
Variable cmp : sector T P -> sector T P -> bool.
Variable powf : T -> T -> T.

Definition minus_one : T := sofZ (-1).
Definition msg_both : string := "Not both 'steps' and 'tolerance' can be set.".
Definition msg_none : string := "One of 'steps' and 'tolerance' must be set.".
Definition msg_jumps : string := "When a fixed number of steps is specified, jump-positions are not supported.".

(** pyscs.cpp:12-35.  Result: the sectors and the match index. *)
Definition pyscs_new (fuel : nat) (xmin xmax : T) (steps : Z) (tolerance : T) (jumps : list T) : res (list (sector T P) * Z) :=
  if negb (steps =? -1) && negb (seqb tolerance minus_one) then Throw msg_both
  else if (steps =? -1) && seqb tolerance minus_one then Throw msg_none
  else if negb (steps =? -1) && negb (match jumps with [] => true | _ => false end) then Throw msg_jumps
  else if sle (sofZ 0) tolerance then
    do r <- auto_build pay err cmp powf tolerance fuel (py_jumps xmin xmax jumps) xmin xmax;
    let '(l, m, _) := r in Ret (l, m)
  else uniform_build pay cmp fuel steps xmin xmax.
End Pyscs.
