(** Specification vocabulary for the step size control of the automatic sector builder. *)
From Coq Require Import ZArith QArith List.
From Verif Require Import Base M_Sectors.
Import ListNotations.

Section Spec.
Context {T : Type} `{Scalar T} {P : Type}.
Notation sec := (sector T P).
(** the error estimate of a sector, and the function pow(tolerance / error, 1 / (order - 1)) *)
Variable err : sec -> T.
Variable powf : T -> T -> T.
Variable tol : T.

Definition width (s : sec) : T := ssub (smax s) (smin s).
(** the sector is longer than 1e-3 and its estimate exceeds the tolerance *)
Definition too_coarse (s : sec) : Prop := slt tol (err s) = true /\ slt (sofQ (1 # 1000)) (width s) = true.
(** the width that replaces the width of a rejected sector: width * max(0.1, 0.99 * pow(tol / err, ..)) *)
Definition reduced (t : sec) : T := smul (width t) (std_max (sofQ (1 # 10)) (smul (sofQ (99 # 100)) (powf tol (err t)))).
(** [s] is what [t] is replaced by: the same direction, the same first end (the end the builder comes from), reduced width *)
Definition refines (t s : sec) : Prop :=
  sdir s = sdir t /\
  match sdir t with
  | Dfwd => smin s = smin t /\ smax s = sadd (smin t) (reduced t)
  | _ => smax s = smax t /\ smin s = ssub (smax t) (reduced t)
  end.
(** every element is refined into the next one *)
Fixpoint refinement_chain (l : list sec) (s : sec) : Prop :=
  match l with
  | [] => True
  | t :: r => refines t (match r with [] => s | u :: _ => u end) /\ refinement_chain r s
  end.
End Spec.
