(** * What "the first matching type" means, for predicates with effects. *)
From Coq Require Import List.
From Verif Require Import Base.
Import ListNotations.
Set Implicit Arguments.

Section S.
Variables (T W : Type) (p : T -> W -> res (bool * W)).

(** The predicate is asked about the types of [l] one after the other, each
    once, and says no every time; the world goes from [w] to [w']. *)
Inductive all_no : list T -> W -> W -> Prop :=
| no_nil w : all_no [] w w
| no_cons t l w w1 w2 : p t w = Ok (false, w1) -> all_no l w1 w2 -> all_no (t :: l) w w2.

(** [t] is the first type of [l] for which it says yes: [w'] is the world after
    the answer, and nothing after [t] was asked. *)
Definition first_yes (l : list T) (w : W) (t : T) (w' : W) : Prop :=
  exists pre post w1, l = pre ++ t :: post /\ all_no pre w w1 /\ p t w1 = Ok (true, w').
End S.
