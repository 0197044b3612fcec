(** Specification vocabulary for comparisons. *)
From Coq Require Export ZArith Floats.SpecFloat.
From Verif Require Export Base.

(** Neither infinite nor NaN. *)
Definition number (x : spec_float) : bool :=
  match x with S754_zero _ | S754_finite _ _ _ => true | _ => false end.

(** Both absent, or both present and alike. *)
Definition both {T U} (eqv : T -> U -> bool) (x : option T) (y : option U) : Prop :=
  match x, y with Some x, Some y => eqv x y = true | None, None => True | _, _ => False end.
