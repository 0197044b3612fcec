(** What MKL's sparse * sparse adapter stores. *)
From Verif Require Import Base.

(** The pairs of elements stored at both ends, in the order of the inner index. *)
Definition meets {T} (n : nat) (f g : nat -> nat -> option T) (i j : nat) : list (T * T) :=
  flat_map (fun q => match f i q, g q j with Some x, Some y => [(x, y)] | _, _ => [] end) (seq 0 n).

(** An element is stored where at least one pair meets. *)
Definition meets_at {T} (dot : list (T * T) -> T) (n : nat) (f g : nat -> nat -> option T) (i j : nat) : option T :=
  match meets n f g i j with [] => None | ps => Some (dot ps) end.
