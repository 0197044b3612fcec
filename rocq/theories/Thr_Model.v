(** Several threads, each with storages of its own (Storage.h 293-501), on one
    heap.  The code has no locks; a call only touches the objects it names, their
    memory and memory it allocates, and the allocator itself is thread safe
    (malloc), so calls of different threads are interleaved as a whole. *)
From Verif Require Export Storage_Model.

Section Thr.
Context {T : Type}.
(** The heap, and the storages of each thread. *)
Record tsys := mkTsys { t_heap : list (block T); t_objs : nat -> list (option stor) }.
Definition tsys0 : tsys := mkTsys [] (fun _ => []).

(** What thread [t] sees. *)
Definition of_thread (y : tsys) (t : nat) : sys T := {| blocks := t_heap y; objs := t_objs y t |}.

(** Thread [t] makes the call [o]. *)
Definition tstep (y : tsys) (t : nat) (o : op T) : res (tsys * out T) :=
  do r <- step (of_thread y t) o;
  Ok (mkTsys (blocks (fst r)) (fun u => if u =? t then objs (fst r) else t_objs y u), snd r).

(** An execution: which thread makes which call, in the order in which the calls
    happen; the result lists who got which report. *)
Fixpoint trun (y : tsys) (l : list (nat * op T)) : res (tsys * list (nat * out T)) :=
  match l with
  | [] => Ok (y, [])
  | (t, o) :: r =>
      do a <- tstep y t o; let '(y1, x) := a in
      do b <- trun y1 r; let '(y2, xs) := b in Ok (y2, (t, x) :: xs)
  end.

(** The calls, or the reports, of one thread. *)
Definition part {A} (t : nat) (l : list (nat * A)) : list A :=
  map snd (filter (fun p => fst p =? t) l).
End Thr.
Arguments tsys : clear implicits.
