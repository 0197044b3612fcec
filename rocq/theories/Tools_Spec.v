(** Specification vocabulary for the tools around the library. *)
From Coq Require Import String.
From Verif Require Import Base Dense_Model Dense_Spec Sparse_Spec Dyn_Model Dyn_Spec Norm_Model Norm_Spec Tools_Model.

(** ** Name tables *)
(** The names and the values of a table of registrations are all different. *)
Definition all_distinct {E} (l : list (string * E)) : Prop := NoDup (map fst l) /\ NoDup (map snd l).

(** ** Tracked scopes *)
(** [nest ev done]: the events of properly nested tracked scopes, [done] the
    (identifier, duration) of each of them, in the order they are left. *)
Inductive nest : list tevent -> list (nat * Z) -> Prop :=
| nest_nil : nest [] []
| nest_scope id t0 t1 ev1 d1 ev2 d2 :
    id < tracker_size -> nest ev1 d1 -> nest ev2 d2 ->
    nest (TEnter id t0 :: ev1 ++ TLeave t1 :: ev2) (d1 ++ (id, (t1 - t0)%Z) :: d2).
(** How often and how long [id] was active. *)
Definition times_left (id : nat) (d : list (nat * Z)) : nat := length (filter (fun p => fst p =? id) d).
Definition time_in (id : nat) (d : list (nat * Z)) : Z :=
  fold_right (fun p s => if fst p =? id then (snd p + s)%Z else s) 0%Z d.

(** ** Band matrices *)
Definition distance (i j : nat) : nat := (i - j) + (j - i).
Definition band {D} (zero v : D) (bw i j : nat) : D := if distance i j <? bw then v else zero.

(** ** Type statistics *)
Section Types.
Context {F D : Type}.
(** The blocked matrix holds the non-null blocks [f I J]. *)
Definition blocks_are (b : blocked F D) (r c : nat) (f : nat -> nat -> dyn F D) : Prop :=
  is_mat (b_mat b) r c (fun I J => Some (f I J)).
End Types.

(** ** Picture of the block types *)
(** Every block has a border of width [bw] at its upper and left side. *)
Definition block_pixel {D} (zero : D) (shade : nat -> D) (bw t i j : nat) : D :=
  if (i <? bw) || (j <? bw) then zero else shade t.

(** Row (or column) [i] of a matrix cut along the sizes [l] lies in block [fst],
    at place [snd]. *)
Fixpoint locate (l : list nat) (i : nat) : nat * nat :=
  match l with
  | [] => (0, i)
  | n :: t => if i <? n then (0, i) else let '(k, o) := locate t (i - n) in (S k, o)
  end.

(** ** Random matrices *)
Section Gen.
Context {D E : Type} (elem : bool -> D -> D) (d1 : E -> D * E) (d2 : E -> bool * E) (sign_first : bool).
(** One sign and one exponent, drawn one after the other from the engine in state
    [e]; the engine's new state. *)
Definition pair_drawn (e : E) : bool * D * E :=
  if sign_first then ((fst (d2 e), fst (d1 (snd (d2 e)))), snd (d1 (snd (d2 e))))
  else ((fst (d2 (snd (d1 e))), fst (d1 e)), snd (d2 (snd (d1 e)))).
Fixpoint after (k : nat) (e : E) : E := match k with 0 => e | S k => after k (snd (pair_drawn e)) end.
(** The element made from the [k]-th pair. *)
Definition kth_value (k : nat) (e : E) : D :=
  let p := fst (pair_drawn (after k e)) in elem (fst p) (snd p).
End Gen.
