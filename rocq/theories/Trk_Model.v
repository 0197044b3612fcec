(** Several threads in tracked functions.  Source:
    include/BlasBooster/Utilities/Tracker.h 75-81, 102-118, src/Utilities/tracker.cpp
    6-7: the destructor of a Tracker adds to two plain static arrays.  [x += d] and
    [++x] on a plain object read it, add and write it: two steps, between which
    another thread may make steps.

    Simplifications: durations and counts are integers (no overflow); a scope
    is represented by what its end does, the beginning only reads the clock; steps
    are sequentially consistent, see [krace]. *)
From Verif Require Export Base.

(** time[id] and count[id]. *)
Inductive tloc := LTime (id : nat) | LCount (id : nat).
Definition tloc_eqb (a b : tloc) : bool :=
  match a, b with LTime i, LTime j | LCount i, LCount j => i =? j | _, _ => false end.

(** Tracker.h 79, 80: read, then write what was read plus the increment. *)
Inductive tpc := TRead (x : tloc) (d : Z) | TWrite (x : tloc) (d tmp : Z).
(** Tracker.h 77-81, called from 111-115 with the duration [snd e] of the scope. *)
Definition add_code (e : nat * Z) : list tpc := [TRead (LTime (fst e)) (snd e); TRead (LCount (fst e)) 1].

Record ksys := mkKsys { k_cell : tloc -> Z; k_code : nat -> list tpc }.
(** Threads about to leave the scopes [prog t]. *)
Definition kinit (c : tloc -> Z) (prog : nat -> list (nat * Z)) : ksys :=
  mkKsys c (fun t => flat_map add_code (prog t)).

Definition kstep (y : ksys) (t : nat) : ksys :=
  match k_code y t with
  | [] => y
  | TRead x d :: r => mkKsys (k_cell y) (fun u => if u =? t then TWrite x d (k_cell y x) :: r else k_code y u)
  | TWrite x d tmp :: r =>
      mkKsys (fun z => if tloc_eqb z x then (tmp + d)%Z else k_cell y z) (fun u => if u =? t then r else k_code y u)
  end.
Definition krun (y : ksys) (l : list nat) : ksys := fold_left kstep l y.

(** Two threads are about to touch the same cell, one of them writing. *)
Definition kloc (p : tpc) : tloc := match p with TRead x _ | TWrite x _ _ => x end.
Definition kwrites (p : tpc) : bool := match p with TRead _ _ => false | TWrite _ _ _ => true end.
Definition krace (y : ksys) : Prop :=
  exists t u p q, t <> u /\ hd_error (k_code y t) = Some p /\ hd_error (k_code y u) = Some q /\
    kloc p = kloc q /\ kwrites p || kwrites q = true.
