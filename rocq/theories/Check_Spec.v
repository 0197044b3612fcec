(** Specification of value checkers and of cached quantities. *)
From Verif Require Import Base Dyn_Model Check_Model.

Section Order.
Context {F D : Type} (ar : arith F D).
(** The comparisons are those of a linear order: true for floating point numbers
    other than NaN, with 0 and -0 identified. *)
Record linear : Prop := mkLinear {
  ln_irrefl : forall x, ltD ar x x = false;
  ln_trans : forall x y z, ltD ar x y = true -> ltD ar y z = true -> ltD ar x z = true;
  ln_total : forall x y, ltD ar x y = true \/ x = y \/ ltD ar y x = true;
  ln_le : forall x y, leD ar x y = negb (ltD ar y x)
}.
Definition lt (x y : D) : Prop := ltD ar x y = true.
Definition le (x y : D) : Prop := lt x y \/ x = y.

(** The range a checker declares, as in the class comment
    (AbsoluteValueRangeChecker.h 33-36) and the template arguments. *)
Definition in_range (c : checker D) (x : D) : Prop :=
  match ck_k c with
  | ExclNo => lt (ck_lo c) (absD ar x)
  | ExclIncl => lt (ck_lo c) (absD ar x) /\ le (absD ar x) (ck_hi c)
  | InclIncl => le (ck_lo c) (absD ar x) /\ le (absD ar x) (ck_hi c)
  | ExclExcl => lt (ck_lo c) (absD ar x) /\ lt (absD ar x) (ck_hi c)
  end.
(** A usable range: not negative, and not reversed; closed ranges may be a point. *)
Definition range_ok (k : ckind) (lo hi : D) : Prop :=
  le (d0 ar) lo /\
  match k with
  | ExclNo => True
  | ExclIncl | ExclExcl => le (d0 ar) hi /\ lt lo hi
  | InclIncl => le (d0 ar) hi /\ le lo hi
  end.

(** A strict weak order (the requirement of std::map on its comparison), for
    the elements satisfying [P]: the relation [R] decides [b]. *)
Record strict_weak {A} (P : A -> Prop) (r : A -> A -> res bool) : Prop := mkSW {
  sw_def : forall a b, P a -> P b -> exists x, r a b = Ok x;
  sw_irrefl : forall a, P a -> r a a = Ok false;
  sw_trans : forall a b c, P a -> P b -> P c -> r a b = Ok true -> r b c = Ok true -> r a c = Ok true;
  sw_incomp : forall a b c, P a -> P b -> P c -> r a b = Ok false -> r b a = Ok false ->
      r b c = Ok false -> r c b = Ok false -> r a c = Ok false /\ r c a = Ok false
}.
End Order.

(** ** Which programs are safe, judged from their text only. *)
Section Discipline.
Context {D C : Type}.
Definition vset (a : nat -> bool) (v : nat) (b : bool) : nat -> bool := fun w => if w =? v then b else a w.

(** [asked v]: the norm of variable [v] (or of the object it was copied from) has
    been asked for. *)
Definition asked_norm (a : nat -> bool) (x : op D C) : nat -> bool :=
  match x with
  | New v _ => vset a v false
  | Copy v s => vset a v (a s)
  | MoveNew v _ => vset a v false
  | GetNorm v => vset a v true
  | _ => a
  end.
(** The same for the occupation; reset() forgets. *)
Definition asked_count (a : nat -> bool) (x : op D C) : nat -> bool :=
  match x with
  | New v _ => vset a v false
  | Copy v s => vset a v (a s)
  | MoveNew v _ => vset a v false
  | GetCount v _ => vset a v true
  | Reset v => vset a v false
  | _ => a
  end.
(** The operation changes the contents of no variable that has been asked. *)
Definition quiet (a : nat -> bool) (x : op D C) : Prop :=
  match x with
  | Modify v _ => a v = false
  | MoveNew v s => a s = false /\ v <> s
  | MoveAssign v s => a v = false /\ a s = false /\ v <> s
  | Swap v w => a v = false /\ a w = false /\ v <> w
  | _ => True
  end.
Fixpoint disciplined (upd : (nat -> bool) -> op D C -> nat -> bool) (a : nat -> bool) (l : list (op D C)) : Prop :=
  match l with
  | [] => True
  | x :: r => quiet a x /\ disciplined upd (upd a x) r
  end.
(** All checkers are of the listed types (ThresholdType double). *)
Definition listed_op (x : op D C) : Prop := match x with GetCount _ k => ck_t k = TTdouble | _ => True end.
End Discipline.
