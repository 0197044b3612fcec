(** What a program over owning storages may rely on when allocations fail: the
    failed call throws, and everything is as if it had not been made.  The
    specification (on values, see Storage_Spec.v) covers the calls for which this
    is so, and is undefined for the others. *)
From Verif Require Export Storage_Spec Alloc_Model.

Section Spec.
Context {T : Type}.

(** Which storages are responsible for memory: all but the default-constructed
    and the moved-from ones (and copies of the latter). *)
Definition holds_after (v : vsys T) (g : list bool) (o : op T) : list bool :=
  match o with
  | ODefault => g ++ [false]
  | OSized _ | OList _ | OConvCtor _ => g ++ [true]
  | OCopyCtor s => g ++ [match vget v s with Some x => v_resizable x | None => false end]
  | OMoveCtor s => upd (g ++ [nth s g false]) s false
  | OResize s n =>
      match vget v s with
      | Some x => if length (v_vals x) =? n then g else if v_resizable x then upd g s true else g
      | None => g
      end
  | OCopyAssign d s => if d =? s then g else upd g d (match vget v s with Some x => v_resizable x | None => false end)
  | OMoveAssign d s => upd (upd g d (nth s g false)) s false
  | OSwap a b => upd (upd g a (nth b g false)) b (nth a g false)
  | OLoad s _ => upd g s true
  | ODestroy s => upd g s false
  | _ => g
  end.

(** A call whose allocation fails has no effect. *)
Definition no_effect (v : vsys T) (g : list bool) : option (vsys T * list bool * aout T) := Some (v, g, ABad).
Definition as_usual (v : vsys T) (g : list bool) (o : op T) : option (vsys T * list bool * aout T) :=
  match vstep v o with Some (v1, x) => Some (v1, holds_after v g o, AOut x) | None => None end.

(** The calls that survive a failed allocation: constructors; resizing or
    assigning to a storage that holds no memory; loading as many elements as
    there are already.  Other calls do not allocate ([as_usual]). *)
Definition wstep (v : vsys T) (g : list bool) (c : op T * bool) : option (vsys T * list bool * aout T) :=
  let '(o, ok) := c in
  if ok then as_usual v g o
  else
    match o with
    | OSized _ | OList _ => no_effect v g
    | OCopyCtor s | OConvCtor s => match vget v s with Some _ => no_effect v g | None => None end
    | OResize s n =>
        match vget v s with
        | Some x =>
            if (length (v_vals x) =? n) || negb (v_resizable x) then as_usual v g o
            else if nth s g false then None else no_effect v g
        | None => None
        end
    | OCopyAssign d s =>
        match vget v d, vget v s with
        | Some _, Some x =>
            if (d =? s) || negb (v_resizable x) then as_usual v g o
            else if nth d g false then None else no_effect v g
        | _, _ => None
        end
    | OLoad s vs =>
        match vget v s with
        | Some x => if length vs =? length (v_vals x) then no_effect v g else None
        | None => None
        end
    | _ => as_usual v g o
    end.

Fixpoint wrun (v : vsys T) (g : list bool) (cs : list (op T * bool)) : option (vsys T * list bool * list (aout T)) :=
  match cs with
  | [] => Some (v, g, [])
  | c :: t =>
      match wstep v g c with
      | Some (v1, g1, x) =>
          match wrun v1 g1 t with Some (v2, g2, xs) => Some (v2, g2, x :: xs) | None => None end
      | None => None
      end
  end.

(** The calls that did not report std::bad_alloc, and what they reported. *)
Fixpoint survivors (cs : list (op T * bool)) (xs : list (aout T)) : list (op T) :=
  match cs, xs with
  | c :: t, AOut _ :: ys => fst c :: survivors t ys
  | _ :: t, ABad :: ys => survivors t ys
  | _, _ => []
  end.
Fixpoint reports (xs : list (aout T)) : list (out T) :=
  match xs with
  | [] => []
  | AOut x :: t => x :: reports t
  | ABad :: t => reports t
  end.
End Spec.
