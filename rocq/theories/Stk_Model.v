(** Model of the storages of compile-time size that hold their elements inside
    the object: Storage.h 17-120 (dense, on the stack) and SparseStorage.h 9-81
    (fixed size).  The two classes have the same members except for the value
    list constructor (dense only) and the condition in the copy assignment.

    Simplifications: element types are arithmetic, so [data_()] sets every element
    to zero; neither class declares a move constructor or move assignment, so
    moves are copies; [equal] is in Eq_Model.v. *)
From Verif Require Import Base Dense_Model.

Section Stk.
Context {T : Type} (zero : T).
(** The template argument [Size], and which of the two classes. *)
Variables (N : nat) (sparse : bool).

(** An object: the array [data_[Size]]. *)
Definition stk := buf T.

(** [data_()]: Storage.h 29, SparseStorage.h 24. *)
Definition stk_new : stk := repeat (Some zero) N.

(** std::copy / std::copy_n, element by element. *)
Definition stk_copy (src dst : stk) : res stk :=
  foldM (fun i d => do c <- rdc src i; wrc d i c) (seq 0 N) dst.

(** Storage.h 53-59: [data_[i++] = val], no check of the length. *)
Definition stk_list (vs : list T) : res stk :=
  foldM (fun '(i, v) d => wr d i v) (enum vs) stk_new.

Inductive kop :=
| KNew (n : nat)                 (* Storage(n), n is ignored     28; SparseStorage()      23 *)
| KList (vs : list T)            (* Storage{...}                 53                          *)
| KCopy (s : nat)                (* Storage(s)                   35; SparseStorage(s)     28 *)
| KAssign (d s : nat)            (* d = s                        43;                      38 *)
| KWrite (s i : nat) (v : T)     (* s.begin()[i] = v             79;                      52 *)
| KRead (s i : nat)              (* s.begin()[i]                 83;                      56 *)
| KSize (s : nat)                (* s.size()                     95;                      68 *)
| KEq (a b : nat).               (* a == b                       62;                      47 *)

Inductive kout := KNone | KVal (c : T) | KNat (n : nat) | KBool (b : bool).

Definition stk_get (m : list stk) (s : nat) : res stk :=
  match nth_error m s with Some o => Ok o | None => UB DeadObject end.

Definition kstep (m : list stk) (x : kop) : res (list stk * kout) :=
  match x with
  | KNew _ => Ok (m ++ [stk_new], KNone)
  | KList vs => do o <- stk_list vs; Ok (m ++ [o], KNone)
  | KCopy s => do r <- stk_get m s; do o <- stk_copy r stk_new; Ok (m ++ [o], KNone)
  | KAssign d s =>
      do l <- stk_get m d; do r <- stk_get m s;
      (* Storage.h 45: if ( this != &rhs ); SparseStorage.h 40: if ( &rhs == this ) *)
      if (if sparse then d =? s else negb (d =? s))
      then do o <- stk_copy r l; Ok (upd m d o, KNone)
      else Ok (m, KNone)
  | KWrite s i v => do o <- stk_get m s; do o1 <- wr o i v; Ok (upd m s o1, KNone)
  | KRead s i => do o <- stk_get m s; do v <- rd o i; Ok (m, KVal v)
  | KSize s => do _ <- stk_get m s; Ok (m, KNat N)
  | KEq a b =>
      (* [data_ == rhs.data_] compares the addresses of the arrays *)
      do _ <- stk_get m a; do _ <- stk_get m b; Ok (m, KBool (a =? b))
  end.

Fixpoint krun (m : list stk) (xs : list kop) : res (list stk * list kout) :=
  match xs with
  | [] => Ok (m, [])
  | x :: t => do r <- kstep m x; let '(m1, z) := r in do r2 <- krun m1 t; let '(m2, zs) := r2 in Ok (m2, z :: zs)
  end.
End Stk.
Arguments kop : clear implicits. Arguments kout : clear implicits.

(** DenseMatrix.h 341-349 with [Parameter<..., VariableSize, ..., OnStack>]
    (Parameter.h 14-36): the storage is [Storage<T,true,false,0,false>]
    (DenseMatrix.h 42, Dimension.h 45), whose array has no elements (accepted by
    g++ as an extension); its constructor ignores the size. *)
Definition stk_matrix {T} (o : orient) (r c : nat) : dense T :=
  mkDense (own_shape o r c) (r * c) [] true.
