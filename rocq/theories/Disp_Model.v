(** * The generic run-time dispatch helpers of Utilities.

    Transcribed: Utilities/exec_if.h, exec_if_2dim.h, exec_dyn.h,
    exec_dyn_2dim.h, TypeChecker.h, TypeList.h (GetIndex), STLHelpers.h 8-15;
    Core/CoreException.h 11-15.

    Unlike [Dyn_Model], which specialises these helpers to the library's own
    matrices, here the type list, the predicate, the functor and the state they
    act on are arbitrary.  A type is a value of [T]; a call operator is a
    function of the type it is instantiated with and of the state of the world
    [W], so that every evaluation of a predicate and of a functor is visible.
    Simplification: the arguments [static_cast<T*>(0)] carry only the type. *)
From Coq Require Import List Arith Bool.
From Verif Require Import Base Dyn_Model.
Import ListNotations.
Set Implicit Arguments.

Section Disp.
Variables (T W R : Type).

(** A call operator that may read and change the world. *)
Definition pred := T -> W -> res (bool * W).
Definition act := T -> W -> res (R * W).
Definition act2 := T -> T -> W -> res (R * W).

(** exec_if.h 7-36.  On the last type of the list the functor is called whether
    or not the predicate holds, after the failure macro. *)
Fixpoint w_exec_if (exc dbg : bool) (p : pred) (e : act) (l : list T) (w : W) : res (R * W) :=
  match l with
  | [] => UB DeadObject  (* no specialisation for an empty list: does not compile *)
  | [t] =>
      do r0 <- p t w; let (b, w1) := r0 in
      do _ <- (if b then Ok tt else core_failure exc dbg);
      e t w1
  | t :: r =>
      do r0 <- p t w; let (b, w1) := r0 in
      if b then e t w1 else w_exec_if exc dbg p e r w1
  end.

(** exec_if_2dim.h 7-30: flowing off the end of the function when the macro does
    not stop the program is undefined. *)
Fixpoint w_exec_if_1dim (exc dbg : bool) (t1 : T) (p : pred) (e : act2) (l : list T) (w : W) : res (R * W) :=
  match l with
  | [] => UB DeadObject
  | [t] =>
      do r0 <- p t w; let (b, w1) := r0 in
      if b then e t1 t w1 else do _ <- core_failure exc dbg; UB DeadObject
  | t :: r =>
      do r0 <- p t w; let (b, w1) := r0 in
      if b then e t1 t w1 else w_exec_if_1dim exc dbg t1 p e r w1
  end.

(** exec_if_2dim.h 32-61; [l2] is the list [L] passed on for the second argument. *)
Fixpoint w_exec_if_2dim_impl (exc dbg : bool) (p1 p2 : pred) (e : act2) (l2 l : list T) (w : W) : res (R * W) :=
  match l with
  | [] => UB DeadObject
  | [t] =>
      do r0 <- p1 t w; let (b, w1) := r0 in
      if b then w_exec_if_1dim exc dbg t p2 e l2 w1 else do _ <- core_failure exc dbg; UB DeadObject
  | t :: r =>
      do r0 <- p1 t w; let (b, w1) := r0 in
      if b then w_exec_if_1dim exc dbg t p2 e l2 w1 else w_exec_if_2dim_impl exc dbg p1 p2 e l2 r w1
  end.
Definition w_exec_if_2dim (exc dbg : bool) (p1 p2 : pred) (e : act2) (l : list T) (w : W) : res (R * W) :=
  w_exec_if_2dim_impl exc dbg p1 p2 e l l w.

(** exec_dyn.h 14-22: a table with one functor per type of the list, indexed by
    the run-time index [i] (std::array::operator[], unchecked). *)
Definition w_exec_dyn (e : act) (l : list T) (i : nat) (w : W) : res (R * W) :=
  match nth_error (map e l) i with
  | None => UB OOBRead
  | Some f => f w
  end.

(** exec_dyn_2dim.h 14-37: one row (DynFuncGenerator1) per type of the list. *)
Definition w_exec_dyn_2dim (e : act2) (l : list T) (i j : nat) (w : W) : res (R * W) :=
  match nth_error (map (fun t1 => map (e t1) l) l) i with
  | None => UB OOBRead
  | Some row => match nth_error row j with None => UB OOBRead | Some f => f w end
  end.

Variable eqb : T -> T -> bool.

(** TypeList.h 12-27. *)
Fixpoint w_index (t : T) (l : list T) : nat :=
  match l with
  | [] => 0
  | x :: r => if eqb t x then 0 else S (w_index t r)
  end.

(** TypeChecker.h 7-18, where [T::typeIndex_] is the position in the list [l0]. *)
Definition checker (l0 : list T) (i : nat) : pred :=
  fun t w => Ok (w_index t l0 =? i, w).

End Disp.

(** STLHelpers.h 8-15: what is written for a vector: the tokens "size = ", the
    size, a line end, then each element and a line end. *)
Inductive tok (A : Type) := TSizeLabel | TNum (n : nat) | TEl (a : A) | TEndl.
Arguments TSizeLabel {A}.
Arguments TNum {A} n.
Arguments TEl {A} a.
Arguments TEndl {A}.
Fixpoint print_loop {A} (v : list A) (out : list (tok A)) : list (tok A) :=
  match v with
  | [] => out
  | a :: r => print_loop r (out ++ [TEl a; TEndl])
  end.
Definition print_vector {A} (v : list A) (out : list (tok A)) : list (tok A) :=
  print_loop v (out ++ [TSizeLabel; TNum (length v); TEndl]).
