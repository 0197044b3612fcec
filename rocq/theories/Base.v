(** Common vocabulary of the model: outcomes of C++ code, memory cells, loops.

    Nothing in this file models a particular file of /repo; it fixes how C++
    behaviour is represented everywhere else:
    - [res A]   : the outcome of running a piece of C++ code;
    - [buf T]   : one allocation, a list of cells, [None] = indeterminate value;
    - [rd]/[wr] : one read / one write through a pointer into that allocation;
    - [foldM]   : a C++ loop over a list of loop values. *)
From Coq Require Export List Arith Lia Bool ZArith.
Export ListNotations.
#[global] Open Scope nat_scope.
#[global] Open Scope list_scope.

(** Kinds of undefined behaviour that the model distinguishes. *)
Inductive ub :=
| OOBRead          (* read outside an allocation *)
| OOBWrite         (* write outside an allocation *)
| UninitRead       (* use of an indeterminate value *)
| NullDeref        (* access through a null pointer *)
| DoubleFree       (* deallocation of an already freed block *)
| UseAfterFree     (* access to a freed block *)
| WildFree         (* deallocation of memory that was never allocated here *)
| DeadObject       (* use of an object outside its lifetime *)
| SizeWrap.        (* unsigned subtraction wrapped and is then used as a bound *)

(** Outcome of running C++ code. [AssertFail]: an [assert] (debug build) fires.
    [Diverge]: the loop does not terminate within the allotted steps. *)
Inductive res (A : Type) :=
| Ok (a : A)
| Throw
| AssertFail
| UB (u : ub)
| Diverge.
Arguments Ok {A} a.
Arguments Throw {A}.
Arguments AssertFail {A}.
Arguments UB {A} u.
Arguments Diverge {A}.

Definition bind {A B} (x : res A) (f : A -> res B) : res B :=
  match x with
  | Ok a => f a
  | Throw => Throw
  | AssertFail => AssertFail
  | UB u => UB u
  | Diverge => Diverge
  end.

Notation "'do' x <- a ; b" := (bind a (fun x => b))
  (at level 200, x pattern, a at level 100, b at level 200).

(** [assert(b)] in a debug build; nothing in a release build. *)
Definition cassert (dbg b : bool) : res unit :=
  if dbg && negb b then AssertFail else Ok tt.

(** One allocation. *)
Definition buf (T : Type) := list (option T).

(** Fresh uninitialised memory of [n] cells. *)
Definition alloc {T} (n : nat) : buf T := repeat None n.

(** Replace the [i]-th element of a list (no change if out of range). *)
Fixpoint upd {A} (l : list A) (i : nat) (v : A) : list A :=
  match l, i with
  | [], _ => []
  | _ :: t, 0 => v :: t
  | h :: t, S k => h :: upd t k v
  end.

(** A read of a value that is then used. *)
Definition rd {T} (b : buf T) (i : nat) : res T :=
  match nth_error b i with
  | None => UB OOBRead
  | Some None => UB UninitRead
  | Some (Some v) => Ok v
  end.

(** A write. *)
Definition wr {T} (b : buf T) (i : nat) (v : T) : res (buf T) :=
  if i <? length b then Ok (upd b i (Some v)) else UB OOBWrite.

(** Element copy that transports an indeterminate value unchanged. *)
Definition rdc {T} (b : buf T) (i : nat) : res (option T) :=
  match nth_error b i with
  | None => UB OOBRead
  | Some c => Ok c
  end.
Definition wrc {T} (b : buf T) (i : nat) (c : option T) : res (buf T) :=
  if i <? length b then Ok (upd b i c) else UB OOBWrite.

(** A loop over the values [l], threading the state [s]. *)
Fixpoint foldM {X S} (f : X -> S -> res S) (l : list X) (s : S) : res S :=
  match l with
  | [] => Ok s
  | x :: t => do s' <- f x s; foldM f t s'
  end.

(** [for (size_t i = 0; i != n; ++i)]. *)
Definition forM {S} (n : nat) (f : nat -> S -> res S) (s : S) : res S :=
  foldM f (seq 0 n) s.

(** Map with outcomes. *)
Fixpoint mapM {A B} (f : A -> res B) (l : list A) : res (list B) :=
  match l with
  | [] => Ok []
  | x :: t => do y <- f x; do ys <- mapM f t; Ok (y :: ys)
  end.

(** Scalar operations.  No law is assumed here: IEEE arithmetic is an
    instance.  [s_nz x] is the C++ condition [if (x)]. *)
Class Scalar (T : Type) := {
  s0 : T; s1 : T;
  sadd : T -> T -> T;
  ssub : T -> T -> T;
  smul : T -> T -> T;
  sopp : T -> T;
  s_nz : T -> bool
}.

#[global] Instance Z_Scalar : Scalar Z := {|
  s0 := 0%Z; s1 := 1%Z; sadd := Z.add; ssub := Z.sub; smul := Z.mul; sopp := Z.opp;
  s_nz := fun x => negb (Z.eqb x 0)
|}.

(** Ring laws, used as an explicit hypothesis where a property needs them. *)
Class RingLaws (T : Type) {S : Scalar T} : Prop := {
  r_add0l : forall a : T, sadd s0 a = a;
  r_addA : forall a b c : T, sadd a (sadd b c) = sadd (sadd a b) c;
  r_addC : forall a b : T, sadd a b = sadd b a;
  r_mulA : forall a b c : T, smul a (smul b c) = smul (smul a b) c;
  r_mul0l : forall a : T, smul s0 a = s0;
  r_mul0r : forall a : T, smul a s0 = s0;
  r_mul1l : forall a : T, smul s1 a = a;
  r_mulDl : forall a b c : T, smul (sadd a b) c = sadd (smul a c) (smul b c);
  r_mulDr : forall a b c : T, smul a (sadd b c) = sadd (smul a b) (smul a c);
  r_sub : forall a b : T, ssub a b = sadd a (sopp b);
  r_oppr : forall a : T, sadd a (sopp a) = s0;
  r_nz : forall a : T, s_nz a = false <-> a = s0
}.

(** Row-wise (C) or column-wise (Fortran) storage: Dimension.h 10-14. *)
Inductive orient := RowMajor | ColMajor.

Definition flip (o : orient) : orient :=
  match o with RowMajor => ColMajor | ColMajor => RowMajor end.

Definition orient_eqb (a b : orient) : bool :=
  match a, b with
  | RowMajor, RowMajor | ColMajor, ColMajor => true
  | _, _ => false
  end.
