(** Heap storages when memory runs out (Storage.h 293-501, Memory.h 7-12):
    [allocate] may throw std::bad_alloc.  Every call allocates at most once; a
    call is paired with a flag that says whether the allocation it makes, if it
    makes one, succeeds.  A call whose flag is [true] is the call of
    Storage_Model.v.

    An exception leaves the object as far as the call had got: a constructor
    whose initialiser throws creates no object and runs no destructor. *)
From Verif Require Export Storage_Model.

Section Alloc.
Context {T : Type}.

(** What a call reports: as in Storage_Model.v, or std::bad_alloc. *)
Inductive aout := AOut (x : out T) | ABad.

Definition fine (r : sys T * out T) : res (sys T * aout) := Ok (fst r, AOut (snd r)).

Definition astep (y : sys T) (c : op T * bool) : res (sys T * aout) :=
  let '(o, ok) := c in
  if ok then do r <- step y o; fine r
  else
    match o with
    | OSized _ | OList _ => Ok (y, ABad)                              (* 312-326: data_(allocate<T>(size)) throws *)
    | OCopyCtor s | OConvCtor s => do _ <- get_obj y s; Ok (y, ABad)  (* 330-335, 349-354 *)
    | OResize s n =>                                                  (* 365-371 *)
        do r <- get_obj y s;
        if st_size r =? n then Ok (y, AOut ONone)
        else if negb (st_own r) then Ok (y, AOut OThrew)
        else
          (* line 368 has released data_, line 369 throws before data_ is set *)
          do h1 <- (match st_data r with None => Ok (blocks y) | Some _ => h_free (blocks y) (st_data r) end);
          Ok ({| blocks := h1; objs := objs y |}, ABad)
    | OCopyAssign d s =>                                              (* 374-388 *)
        do l <- get_obj y d;
        do r <- get_obj y s;
        if d =? s then Ok (y, AOut ONone)
        else
          (* line 377 has released data_, line 379 throws before data_ is set *)
          do h1 <- (if st_own l then h_free (blocks y) (st_data l) else Ok (blocks y));
          if st_own r then Ok ({| blocks := h1; objs := objs y |}, ABad)
          else Ok ({| blocks := h1;
                      objs := upd (objs y) d (Some {| st_data := st_data r; st_size := st_size r; st_own := st_own r |}) |},
                   AOut ONone)
    | OLoad s vs =>                                                   (* 486-492 *)
        (* line 488 has set size_, line 489 throws *)
        do r <- get_obj y s;
        Ok (set_obj y s (Some {| st_data := st_data r; st_size := length vs; st_own := st_own r |}), ABad)
    | _ => do r <- step y o; fine r                                   (* no allocation *)
    end.

Fixpoint arun (y : sys T) (cs : list (op T * bool)) : res (sys T * list aout) :=
  match cs with
  | [] => Ok (y, [])
  | c :: t =>
      do r <- astep y c; let '(y1, x) := r in
      do r2 <- arun y1 t; let '(y2, xs) := r2 in Ok (y2, x :: xs)
  end.
End Alloc.
Arguments aout : clear implicits.

(** * Compile-time sized heap storage: only constructors allocate (136-178,
      [new T[size_]]), in the initialiser list. *)
Section AFixed.
Context {T : Type}.
Variable N : nat.
Definition afstep (y : fsys T) (c : fop T * bool) : res (fsys T * aout T) :=
  let '(o, ok) := c in
  if ok then do r <- fstep N y o; Ok (fst r, AOut (snd r))
  else
    match o with
    | FDefault | FList _ | FConv _ => Ok (y, ABad)
    | FCopyCtor s => do _ <- f_get y s; Ok (y, ABad)
    | _ => do r <- fstep N y o; Ok (fst r, AOut (snd r))
    end.
Fixpoint afrun (y : fsys T) (cs : list (fop T * bool)) : res (fsys T * list (aout T)) :=
  match cs with
  | [] => Ok (y, [])
  | c :: t =>
      do r <- afstep y c; let '(y1, x) := r in
      do r2 <- afrun y1 t; let '(y2, xs) := r2 in Ok (y2, x :: xs)
  end.
End AFixed.
