(** Ownership of problems and eigenfunctions in the language bindings.

    Models, as transition systems over histories of user operations:
    - Python: /repo/matslise/pyslise/module.h:52-72 (EigenfunctionWrapper), pyslise.cpp:57-77, 99-106, 268-285, 294-302,
      pyslise.cpp:175-177 ("__sector"), sturm_liouville.cpp (pyslise):59-73, pyscs.cpp:50-52, and the holders declared in the py::class_ lines
      (problems are held by std::shared_ptr, eigenfunctions by the default std::unique_ptr);
    - JavaScript: /repo/matslise/js/matslise.cpp:20-50, js/sturm_liouville.cpp:29-37 and js/module.h:28-37.

    One address per problem: its sectors, the inner problem of the half-range and periodic classes and the Liouville
    transformation are members of it and die with it.  An eigenfunction object holds a raw pointer to its problem; evaluating it reads the problem.
    What is not modelled: the numerical contents, Python's cycle collector (there are no cycles: C++ never refers
    back to a Python object after construction), interpreter exit. *)
From Coq Require Import String List Arith Bool.
From Verif Require Import Base.
Import ListNotations.

Definition upd {A} (f : nat -> A) (i : nat) (v : A) : nat -> A := fun j => if Nat.eqb j i then v else f j.

(** ** Python *)

(** [p_alive]: the C++ problem exists; [p_count]: use_count of its shared_ptr control block; [p_refs]: Python references to
    the Python object that holds it; [f_alive]: the C++ eigenfunction exists; [w_alive]: its EigenfunctionWrapper exists;
    [f_refs]: Python references to the eigenfunction's Python object; [f_prob]: the problem the eigenfunction points to;
    [w_nurse]: the problem the wrapper's nurse keeps. *)
Record pst := mkP {
  np : nat; p_alive : nat -> bool; p_count : nat -> nat; p_refs : nat -> nat;
  nf : nat; f_alive : nat -> bool; w_alive : nat -> bool; f_refs : nat -> nat; f_prob : nat -> nat; w_nurse : nat -> nat }.
Definition p_init : pst := mkP 0 (fun _ => false) (fun _ => 0) (fun _ => 0) 0 (fun _ => false) (fun _ => false) (fun _ => 0) (fun _ => 0) (fun _ => 0).

Definition set_p (s : pst) a c r := mkP (np s) a c r (nf s) (f_alive s) (w_alive s) (f_refs s) (f_prob s) (w_nurse s).
Definition set_f (s : pst) a w r := mkP (np s) (p_alive s) (p_count s) (p_refs s) (nf s) a w r (f_prob s) (w_nurse s).

(** copying a std::shared_ptr *)
Definition sp_copy (p : nat) (s : pst) : res pst :=
  if p_alive s p then Ret (set_p s (p_alive s) (upd (p_count s) p (S (p_count s p))) (p_refs s))
  else UB "shared_ptr to a destroyed problem".
(** destroying a std::shared_ptr: the last one destroys the problem *)
Definition sp_release (p : nat) (s : pst) : res pst :=
  if p_alive s p then
    match p_count s p with
    | O => UB "use_count underflow"
    | S c => Ret (set_p s (if Nat.eqb c 0 then upd (p_alive s) p false else p_alive s) (upd (p_count s) p c) (p_refs s))
    end
  else UB "double destruction of a problem".

(** dereferencing a problem (calling one of its methods, reading its sectors) *)
Definition use_problem (p : nat) (s : pst) : res unit := if p_alive s p then Ret tt else UB "access to a destroyed problem".

(** __init__: new problem, one holder, one Python reference. *)
Definition py_new (s : pst) : pst :=
  let p := np s in
  mkP (S p) (upd (p_alive s) p true) (upd (p_count s) p 1) (upd (p_refs s) p 1) (nf s) (f_alive s) (w_alive s) (f_refs s) (f_prob s) (w_nurse s).

(** pyslise.cpp:66-71, 104-105, 278-280, 300-301: make_unique<EigenfunctionWrapper>(m, f): the nurse is a copy of m;
    the new Python object has one reference. [p] is the problem the function f points to, [m] the shared_ptr argument. *)
Definition py_wrap (m p : nat) (s : pst) : res pst :=
  do s <- sp_copy m s;
  let f := nf s in
  Ret (mkP (np s) (p_alive s) (p_count s) (p_refs s) (S f) (upd (f_alive s) f true) (upd (w_alive s) f true) (upd (f_refs s) f 1)
           (upd (f_prob s) f p) (upd (w_nurse s) f m)).
Fixpoint py_wraps (k m : nat) (s : pst) : res pst :=
  match k with O => Ret s | S k => do s <- py_wrap m m s; py_wraps k m s end.

(** eigenfunction / eigenpairsByIndex called on p: the argument m is a shared_ptr taken from the holder (pybind11 copies it),
    the method is called on it, k eigenfunctions result (None: the method throws), m is destroyed on return. *)
Definition py_eigen (p : nat) (k : option nat) (s : pst) : res pst :=
  do s <- sp_copy p s;
  do _ <- use_problem p s;
  do s <- (match k with Some k => py_wraps k p s | None => Ret s end);
  sp_release p s.

(** The last Python reference to a problem goes: its Python object is deallocated and the holder destroyed. *)
Definition py_drop_problem (p : nat) (s : pst) : res pst :=
  match p_refs s p with
  | O => Ret s
  | S r =>
      let s := set_p s (p_alive s) (p_count s) (upd (p_refs s) p r) in
      if Nat.eqb r 0 then sp_release p s else Ret s
  end.
(** The last Python reference to an eigenfunction goes: the unique_ptr holder destroys the wrapper, whose members are
    destroyed in reverse order of declaration (module.h:55-56): function, then nurse. *)
Definition py_drop_fun (f : nat) (s : pst) : res pst :=
  match f_refs s f with
  | O => Ret s
  | S r =>
      let s := set_f s (f_alive s) (w_alive s) (upd (f_refs s) f r) in
      if Nat.eqb r 0 then
        if w_alive s f && f_alive s f then
          sp_release (w_nurse s f) (set_f s (upd (f_alive s) f false) (upd (w_alive s) f false) (f_refs s))
        else UB "double destruction of an eigenfunction"
      else Ret s
  end.
(** module.h:63-71 through pyslise.cpp:17-23: calling an eigenfunction. *)
Definition py_call (f : nat) (s : pst) : res pst :=
  if w_alive s f && f_alive s f then do _ <- use_problem (f_prob s f) s; Ret s else UB "access to a destroyed eigenfunction".

Inductive py_op :=
| PyNew                                (** construct a problem *)
| PyUse (p : nat)                      (** call any other method of a problem *)
| PyEigen (p : nat) (k : option nat)   (** ask for eigenfunctions; None: the call raises *)
| PyCopyProblem (p : nat) | PyDropProblem (p : nat)   (** Python references, by assignment or del *)
| PyCopyFun (f : nat) | PyDropFun (f : nat)
| PyCall (f : nat).                    (** evaluate an eigenfunction *)

(** An operation on an object the program holds no reference to cannot be written; it changes nothing here. *)
Definition py_step (o : py_op) (s : pst) : res pst :=
  match o with
  | PyNew => Ret (py_new s)
  | PyUse p => if Nat.eqb (p_refs s p) 0 then Ret s else do _ <- use_problem p s; Ret s
  | PyEigen p k => if Nat.eqb (p_refs s p) 0 then Ret s else py_eigen p k s
  | PyCopyProblem p => if Nat.eqb (p_refs s p) 0 then Ret s else Ret (set_p s (p_alive s) (p_count s) (upd (p_refs s) p (S (p_refs s p))))
  | PyDropProblem p => py_drop_problem p s
  | PyCopyFun f => if Nat.eqb (f_refs s f) 0 then Ret s else Ret (set_f s (f_alive s) (w_alive s) (upd (f_refs s) f (S (f_refs s f))))
  | PyDropFun f => py_drop_fun f s
  | PyCall f => if Nat.eqb (f_refs s f) 0 then Ret s else py_call f s
  end.
Fixpoint py_run (h : list py_op) (s : pst) : res pst :=
  match h with [] => Ret s | o :: h => do s <- py_step o s; py_run h s end.

(** "__sector" (pyslise.cpp:175-177, pyscs.cpp:50-52): return_value_policy::reference, the Python object keeps a raw pointer and
    nothing keeps the problem alive.  Reading an attribute (min, max, forward, v) of the sector obtained from problem p: *)
Definition py_read_sector (p : nat) (s : pst) : res unit := use_problem p s.

(** ** JavaScript *)

(** Embind objects own their C++ object until delete() is called on them; nothing else destroys it.  [j_alive]: the problem
    exists (its handle is not deleted); [e_alive]: the eigenfunction exists. *)
Record jst := mkJ { jp : nat; j_alive : nat -> bool; je : nat; e_alive : nat -> bool; e_prob : nat -> nat }.
Definition j_init : jst := mkJ 0 (fun _ => false) 0 (fun _ => false) (fun _ => 0).
Definition js_new (s : jst) : jst := mkJ (S (jp s)) (upd (j_alive s) (jp s) true) (je s) (e_alive s) (e_prob s).
(** js/matslise.cpp:20-24, 38-46; wrapEigenfunction(unique_ptr) (js/module.h:28-37): the JavaScript function owns the eigenfunction only. *)
Definition js_wrap (p : nat) (s : jst) : jst := mkJ (jp s) (j_alive s) (S (je s)) (upd (e_alive s) (je s) true) (upd (e_prob s) (je s) p).
Fixpoint js_wraps (k p : nat) (s : jst) : jst := match k with O => s | S k => js_wraps k p (js_wrap p s) end.

Inductive js_op := JsNew | JsUse (p : nat) | JsEigen (p k : nat) | JsDeleteProblem (p : nat) | JsDeleteFun (f : nat) | JsCall (f : nat).
(** Using a deleted handle is refused by embind with a JavaScript exception (BindingError); the program may go on. *)
Definition js_step (o : js_op) (s : jst) : res jst :=
  match o with
  | JsNew => Ret (js_new s)
  | JsUse p => Ret s
  | JsEigen p k => if j_alive s p then Ret (js_wraps k p s) else Ret s
  | JsDeleteProblem p => Ret (mkJ (jp s) (upd (j_alive s) p false) (je s) (e_alive s) (e_prob s))
  | JsDeleteFun f => Ret (mkJ (jp s) (j_alive s) (je s) (upd (e_alive s) f false) (e_prob s))
  | JsCall f =>
      if e_alive s f then
        if j_alive s (e_prob s f) then Ret s else UB "access to a destroyed problem"
      else Ret s
  end.
Fixpoint js_run (h : list js_op) (s : jst) : res jst :=
  match h with [] => Ret s | o :: h => do s <- js_step o s; js_run h s end.
