(** More of the Python and JavaScript bindings: the check on K of periodic problems, the conversions of arguments and results.
    Models /repo/matslise/pyslise/pyslise.cpp (parts cited below) and /repo/matslise/js/matslise.cpp, js/module.h.
    Simplifications: a JavaScript or numpy array is a list; conversions of single numbers (val::as<double>) are the identity. *)
From Coq Require Import String ZArith QArith Floats List Bool.
From Verif Require Import Base M_Sectors M_Search M_Periodic.
Import ListNotations.
Open Scope Z_scope.

(** Conversions of doubles to int, std::floor, std::ceil, std::round followed by the conversion; None: not representable. *)
Definition float_floorZ (x : float) : option Z :=
  match Prim2SF x with
  | S754_zero _ => Some 0
  | S754_finite s m e => let n := if s then Zneg m else Zpos m in Some (if 0 <=? e then n * 2 ^ e else n / 2 ^ (- e))
  | _ => None
  end.
Definition float_floor (x : float) : option Z := match float_floorZ x with Some z => if int_ok z then Some z else None | None => None end.
Definition float_ceil (x : float) : option Z :=
  match float_floorZ (- x)%float with Some z => if int_ok (- z) then Some (- z) else None | None => None end.
Definition float_round (x : float) : option Z :=
  match Prim2SF x with
  | S754_zero _ => Some 0
  | S754_finite s m e =>
      let n := if 0 <=? e then Zpos m * 2 ^ e else (Zpos m + 2 ^ (- e - 1)) / 2 ^ (- e) in
      let z := if s then - n else n in
      if int_ok z then Some z else None
  | _ => None
  end.
#[export] Instance Conv_F : Conv float := {
  sabs := PrimFloat.abs; snan := fun x => negb (x =? x)%float; spi := 0x1.921fb54442d18p+1%float;
  ifloor := float_floor; iceil := float_ceil; iround := float_round
}.

(** pyslise.cpp:240-243: the constructor of PyslisePeriodic; K = [[a, b], [c, d]], Eigen's determinant of a 2x2 matrix. *)
Definition msg_K : string := "PyslisePeriodic: K should have determinant 1.".
Definition periodic_check {T} `{Scalar T} `{Conv T} (a b c d : T) : res unit :=
  if slt (sofQ (1 # 1000000)) (sabs (ssub (sofZ 1) (ssub (smul a d) (smul b c)))) then Throw msg_K else Ret tt.

Section Bindings.
Context {T : Type} `{Scalar T} {P : Type}.
(** js/matslise.cpp:69-75, 83-89 sectorPoints: for (int i = 1; i < sectorCount; ++i) push(sectors[i]->min). *)
Fixpoint sector_points_loop (n : nat) (i : Z) (l : list (sector T P)) : res (list T) :=
  if i <? Z.of_nat (length l) then
    match n with
    | O => Fuel
    | S k => do s <- vget l i; do r <- sector_points_loop k (i + 1) l; Ret (smin s :: r)
    end
  else Ret [].
Definition sector_points (l : list (sector T P)) : res (list T) := sector_points_loop (length l) 1 l.

(** js/matslise.cpp:11-19 eval: the array overload for an array, the scalar one for a number; pyslise.cpp:17-23 __call__ in the same
    way, the result transposed. *)
Inductive value := Number (x : T) | Array (xs : list T).
Inductive result := Vector (v : T * T) | Rows (vs : list (T * T)).
Variables (f : T -> res (T * T)) (fN : list T -> res (list (T * T))).
Definition js_eval (x : value) : res result :=
  match x with Array xs => do vs <- fN xs; Ret (Rows vs) | Number x => do v <- f x; Ret (Vector v) end.
(** pyslise.cpp:20-23: two rows, the values and the derivatives. *)
Definition py_call (xs : list T) : res (list T * list T) := do vs <- fN xs; Ret (map fst vs, map snd vs).
(** js/matslise.cpp:27-32 computeEigenfunction: column 0. *)
Definition compute_eigenfunction (xs : list T) : res (list T) := do vs <- fN xs; Ret (map fst vs).
End Bindings.
