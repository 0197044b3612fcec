(** Model of include/BlasBooster/Core/Storage.h: run-time sized heap storage
    (lines 293-501) and compile-time sized heap storage (lines 124-288), as
    operations on a heap of blocks.

    Simplifications (all storages):
    - [allocate]/[deallocate] (Memory.h 7-19, blaze) always succeed, return a
      fresh block, and accept a null pointer on release;
    - [deallocate] of a block releases the whole block, pointers always point to
      the first cell of a block;
    - element copies transport indeterminate values unchanged. *)
From Verif Require Export Base.

Section Heap.
  Context {T : Type}.

  (** A heap block. [b_ext]: memory supplied by the caller, not by [allocate]. *)
  Record block := { b_live : bool; b_ext : bool; b_cells : buf T }.

  (** A run-time sized storage object: Storage.h 494-499
      ([data_], [size_], [ownMemory_]). *)
  Record stor := { st_data : option nat; st_size : nat; st_own : bool }.

  (** The program state: all blocks ever created, all storage objects ever
      created ([None] = destroyed). *)
  Record sys := { blocks : list block; objs : list (option stor) }.

  Definition sys0 : sys := {| blocks := []; objs := [] |}.

  (** [allocate<T>(n)]: Memory.h 7-12. *)
  Definition h_alloc (h : list block) (cells : buf T) : list block * nat :=
    (h ++ [{| b_live := true; b_ext := false; b_cells := cells |}], length h).

  (** [deallocate<T>(p)]: Memory.h 14-19; a null pointer is accepted. *)
  Definition h_free (h : list block) (p : option nat) : res (list block) :=
    match p with
    | None => Ok h
    | Some i =>
      match nth_error h i with
      | None => UB WildFree
      | Some b =>
        if b_ext b then UB WildFree
        else if b_live b then
          Ok (upd h i {| b_live := false; b_ext := false; b_cells := b_cells b |})
        else UB DoubleFree
      end
    end.

  (** Reading the first [n] cells behind a pointer (the source of [std::copy]). *)
  Definition h_read (h : list block) (p : option nat) (n : nat) : res (buf T) :=
    match n with
    | 0 => Ok []
    | _ =>
      match p with
      | None => UB NullDeref
      | Some i =>
        match nth_error h i with
        | None => UB OOBRead
        | Some b =>
          if negb (b_live b) then UB UseAfterFree
          else if n <=? length (b_cells b) then Ok (firstn n (b_cells b))
          else UB OOBRead
        end
      end
    end.

  (** Writing cells [0..] behind a pointer. *)
  Definition h_write (h : list block) (p : option nat) (vs : buf T) : res (list block) :=
    match vs with
    | [] => Ok h
    | _ =>
      match p with
      | None => UB NullDeref
      | Some i =>
        match nth_error h i with
        | None => UB OOBWrite
        | Some b =>
          if negb (b_live b) then UB UseAfterFree
          else if length vs <=? length (b_cells b) then
            Ok (upd h i {| b_live := true; b_ext := b_ext b;
                           b_cells := vs ++ skipn (length vs) (b_cells b) |})
          else UB OOBWrite
        end
      end
    end.

  (** What an operation reports to its caller. *)
  Inductive out :=
  | ONone                     (* returned normally *)
  | OThrew                    (* threw std::runtime_error, objects unchanged *)
  | OVal (c : option T).      (* returned an element *)

  (** Calls a program can make.  Constructors append a new object. *)
  Inductive op :=
  | ODefault                          (* Storage()                        305 *)
  | OSized (n : nat)                  (* Storage(size)                    312 *)
  | OList (vs : list T)               (* Storage{...}                     320 *)
  | OCopyCtor (s : nat)               (* Storage(rhs)                     330 *)
  | OMoveCtor (s : nat)               (* Storage(move(rhs))               338 *)
  | OConvCtor (s : nat)               (* Storage(Storage<T2,...>)         349 *)
  | OExtAlloc (vs : buf T)            (* the caller creates memory of its own *)
  | OProxy (blk n : nat)              (* Storage(ptrExternalData, n)      357 *)
  | OProxyOf (s : nat)                (* Storage(s.getDataPointer(), s.size()) *)
  | OResize (s n : nat)               (* s.resize(n)                      365 *)
  | OCopyAssign (d s : nat)           (* d = s                            374 *)
  | OMoveAssign (d s : nat)           (* d = move(s)                      391 *)
  | OSwap (a b : nat)                 (* swap(a, b)                       406 *)
  | OFill (s : nat) (v : T)           (* s.fill(v)                        465 *)
  | OWrite (s i : nat) (v : T)        (* s.getDataPointer()[i] = v            *)
  | ORead (s i : nat)                 (* s.getDataPointer()[i]                *)
  | OLoad (s : nat) (vs : list T)     (* archive >> s  (archive holds vs) 486 *)
  | ODestroy (s : nat).               (* ~Storage()                       361 *)

  Definition get_obj (y : sys) (s : nat) : res stor :=
    match nth_error (objs y) s with
    | Some (Some o) => Ok o
    | _ => UB DeadObject
    end.

  Definition set_obj (y : sys) (s : nat) (o : option stor) : sys :=
    {| blocks := blocks y; objs := upd (objs y) s o |}.

  Definition new_obj (h : list block) (y : sys) (o : stor) : sys :=
    {| blocks := h; objs := objs y ++ [Some o] |}.

  (** Storage.h 305-308. *)
  Definition s_default (y : sys) : sys :=
    new_obj (blocks y) y {| st_data := None; st_size := 0; st_own := true |}.

  (** Storage.h 312-316 (memory indeterminate) and 320-326 (values given). *)
  Definition s_fresh (y : sys) (cells : buf T) : sys :=
    let '(h, p) := h_alloc (blocks y) cells in
    new_obj h y {| st_data := Some p; st_size := length cells; st_own := true |}.

  (** Storage.h 330-335: allocates, copies, but takes [rhs.ownMemory_]. *)
  Definition s_copy_ctor (y : sys) (s : nat) : res sys :=
    do r <- get_obj y s;
    do cells <- h_read (blocks y) (st_data r) (st_size r);
    let '(h, p) := h_alloc (blocks y) cells in
    Ok (new_obj h y {| st_data := Some p; st_size := st_size r; st_own := st_own r |}).

  (** Storage.h 338-345. *)
  Definition s_move_ctor (y : sys) (s : nat) : res sys :=
    do r <- get_obj y s;
    let y1 := new_obj (blocks y) y r in
    Ok (set_obj y1 s (Some {| st_data := None; st_size := 0; st_own := false |})).

  (** Storage.h 349-354 (element conversion left out: same element type). *)
  Definition s_conv_ctor (y : sys) (s : nat) : res sys :=
    do r <- get_obj y s;
    do cells <- h_read (blocks y) (st_data r) (st_size r);
    let '(h, p) := h_alloc (blocks y) cells in
    Ok (new_obj h y {| st_data := Some p; st_size := st_size r; st_own := true |}).

  (** Storage.h 365-371. *)
  Definition s_resize (y : sys) (s n : nat) : res (sys * out) :=
    do r <- get_obj y s;
    if st_size r =? n then Ok (y, ONone)
    else if negb (st_own r) then Ok (y, OThrew)
    else
      do h1 <- (match st_data r with None => Ok (blocks y) | Some _ => h_free (blocks y) (st_data r) end);
      let '(h2, p) := h_alloc h1 (alloc n) in
      Ok ({| blocks := h2;
             objs := upd (objs y) s (Some {| st_data := Some p; st_size := n; st_own := st_own r |}) |},
          ONone).

  (** Storage.h 374-388. *)
  Definition s_copy_assign (y : sys) (d s : nat) : res sys :=
    do l <- get_obj y d;
    do r <- get_obj y s;
    if d =? s then Ok y
    else
      do h1 <- (if st_own l then h_free (blocks y) (st_data l) else Ok (blocks y));
      if st_own r then
        do cells <- h_read h1 (st_data r) (st_size r);
        let '(h2, p) := h_alloc h1 cells in
        Ok {| blocks := h2;
              objs := upd (objs y) d
                (Some {| st_data := Some p; st_size := st_size r; st_own := st_own r |}) |}
      else
        Ok {| blocks := h1;
              objs := upd (objs y) d
                (Some {| st_data := st_data r; st_size := st_size r; st_own := st_own r |}) |}.

  (** Storage.h 391-404 (no self-assignment check). *)
  Definition s_move_assign (y : sys) (d s : nat) : res sys :=
    do l <- get_obj y d;
    do r <- get_obj y s;
    do h1 <- (if st_own l then h_free (blocks y) (st_data l) else Ok (blocks y));
    let y1 := {| blocks := h1; objs := upd (objs y) d (Some r) |} in
    Ok (set_obj y1 s (Some {| st_data := None; st_size := 0; st_own := false |})).

  (** Storage.h 406-412. *)
  Definition s_swap (y : sys) (a b : nat) : res sys :=
    do x <- get_obj y a;
    do z <- get_obj y b;
    Ok (set_obj (set_obj y a (Some z)) b (Some x)).

  (** Storage.h 465-467. *)
  Definition s_fill (y : sys) (s : nat) (v : T) : res sys :=
    do r <- get_obj y s;
    do h <- h_write (blocks y) (st_data r) (repeat (Some v) (st_size r));
    Ok {| blocks := h; objs := objs y |}.

  (** Access through [getDataPointer()], Storage.h 457-463, [data_ + i]. *)
  Definition h_cell (h : list block) (p : option nat) (i : nat) : res (nat * block) :=
    match p with
    | None => UB NullDeref
    | Some k =>
      match nth_error h k with
      | None => UB OOBRead
      | Some b => if negb (b_live b) then UB UseAfterFree
                  else if i <? length (b_cells b) then Ok (k, b) else UB OOBRead
      end
    end.

  Definition s_write (y : sys) (s i : nat) (v : T) : res sys :=
    do r <- get_obj y s;
    do kb <- h_cell (blocks y) (st_data r) i;
    let '(k, b) := kb in
    Ok {| blocks := upd (blocks y) k
            {| b_live := true; b_ext := b_ext b; b_cells := upd (b_cells b) i (Some v) |};
          objs := objs y |}.

  Definition s_read (y : sys) (s i : nat) : res (option T) :=
    do r <- get_obj y s;
    do kb <- h_cell (blocks y) (st_data r) i;
    rdc (b_cells (snd kb)) i.

  (** Storage.h 486-492: overwrites [data_] without releasing it. *)
  Definition s_load (y : sys) (s : nat) (vs : list T) : res sys :=
    do r <- get_obj y s;
    let '(h, p) := h_alloc (blocks y) (map Some vs) in
    Ok {| blocks := h;
          objs := upd (objs y) s
            (Some {| st_data := Some p; st_size := length vs; st_own := true |}) |}.

  (** Storage.h 361-363. *)
  Definition s_destroy (y : sys) (s : nat) : res sys :=
    do r <- get_obj y s;
    do h <- (if st_own r then
               match st_data r with None => Ok (blocks y) | Some _ => h_free (blocks y) (st_data r) end
             else Ok (blocks y));
    Ok {| blocks := h; objs := upd (objs y) s None |}.

  Definition quiet (x : res sys) : res (sys * out) := do y <- x; Ok (y, ONone).

  (** One call. *)
  Definition step (y : sys) (o : op) : res (sys * out) :=
    match o with
    | ODefault => Ok (s_default y, ONone)
    | OSized n => Ok (s_fresh y (alloc n), ONone)
    | OList vs => Ok (s_fresh y (map Some vs), ONone)
    | OCopyCtor s => quiet (s_copy_ctor y s)
    | OMoveCtor s => quiet (s_move_ctor y s)
    | OConvCtor s => quiet (s_conv_ctor y s)
    | OExtAlloc vs =>
        Ok ({| blocks := blocks y ++ [{| b_live := true; b_ext := true; b_cells := vs |}];
               objs := objs y |}, ONone)
    | OProxy blk n =>
        Ok (new_obj (blocks y) y {| st_data := Some blk; st_size := n; st_own := false |}, ONone)
    | OProxyOf s =>
        do r <- get_obj y s;
        Ok (new_obj (blocks y) y {| st_data := st_data r; st_size := st_size r; st_own := false |}, ONone)
    | OResize s n => s_resize y s n
    | OCopyAssign d s => quiet (s_copy_assign y d s)
    | OMoveAssign d s => quiet (s_move_assign y d s)
    | OSwap a b => quiet (s_swap y a b)
    | OFill s v => quiet (s_fill y s v)
    | OWrite s i v => quiet (s_write y s i v)
    | ORead s i => do c <- s_read y s i; Ok (y, OVal c)
    | OLoad s vs => quiet (s_load y s vs)
    | ODestroy s => quiet (s_destroy y s)
    end.

  (** A whole program: the calls in order, with what each of them reported. *)
  Fixpoint run (y : sys) (ops : list op) : res (sys * list out) :=
    match ops with
    | [] => Ok (y, [])
    | o :: t =>
      do r <- step y o;
      let '(y1, x) := r in
      do r2 <- run y1 t;
      let '(y2, xs) := r2 in
      Ok (y2, x :: xs)
    end.

End Heap.

Arguments block : clear implicits.
Arguments sys : clear implicits.
Arguments op : clear implicits.
Arguments out : clear implicits.

(** * Compile-time sized heap storage, Storage.h 124-288 *)
Section Fixed.
  Context {T : Type}.
  (** The template argument [Size]. *)
  Variable N : nat.

  (** Storage.h 281-286: [data_] (never null), [ownMemory_]. *)
  Record fstor := { f_data : nat; f_own : bool }.
  Record fsys := { f_blocks : list (block T); f_objs : list (option fstor) }.
  Definition fsys0 : fsys := {| f_blocks := []; f_objs := [] |}.

  Inductive fop :=
  | FDefault                        (* Storage()                136 *)
  | FList (vs : list T)             (* Storage{...}             144 *)
  | FCopyCtor (s : nat)             (* Storage(rhs)             155 *)
  | FMoveCtor (s : nat)             (* Storage(move(rhs))       163 *)
  | FConv (cs : buf T)              (* Storage(Storage<T2,...>) 172, the other storage holds cs *)
  | FExt (vs : buf T)               (* the caller creates memory of its own *)
  | FProxy (blk n : nat)            (* Storage(ptrExternal, n)  181 *)
  | FLoad (s : nat) (vs : list T)   (* archive >> s  (archive holds vs) 272 *)
  | FCopyAssign (d s : nat)         (* d = s                    190 *)
  | FMoveAssign (d s : nat)         (* d = move(s)              201 *)
  | FSwap (a b : nat)               (* swap(a,b)                207 *)
  | FWrite (s i : nat) (v : T)
  | FRead (s i : nat)
  | FDestroy (s : nat).             (* ~Storage()               185 *)

  Definition f_get (y : fsys) (s : nat) : res fstor :=
    match nth_error (f_objs y) s with
    | Some (Some o) => Ok o
    | _ => UB DeadObject
    end.

  Definition f_new (y : fsys) (cells : buf T) : fsys :=
    let '(h, p) := h_alloc (f_blocks y) cells in
    {| f_blocks := h; f_objs := f_objs y ++ [Some {| f_data := p; f_own := true |}] |}.

  Definition fstep (y : fsys) (o : fop) : res (fsys * out T) :=
    match o with
    | FDefault => Ok (f_new y (alloc N), ONone)                      (* 136-140 *)
    | FList vs =>                                                    (* 144-151 *)
        if length vs =? N then Ok (f_new y (map Some vs), ONone)
        else
          (* [new T[size_]] happened in the initialiser list; the constructor
             throws, so no destructor runs and the block stays allocated. *)
          Ok ({| f_blocks := fst (h_alloc (f_blocks y) (alloc N)); f_objs := f_objs y |}, OThrew)
    | FCopyCtor s =>                                                 (* 155-160 *)
        do r <- f_get y s;
        do cells <- h_read (f_blocks y) (Some (f_data r)) N;
        Ok (f_new y cells, ONone)
    | FMoveCtor s =>                                                 (* 163-168 *)
        do r <- f_get y s;
        Ok ({| f_blocks := f_blocks y;
               f_objs := upd (f_objs y ++ [Some r]) s
                             (Some {| f_data := f_data r; f_own := false |}) |}, ONone)
    | FConv cs =>                                                    (* 171-178 *)
        if length cs =? N then Ok (f_new y cs, ONone)
        else Ok ({| f_blocks := fst (h_alloc (f_blocks y) (alloc N)); f_objs := f_objs y |}, OThrew)
    | FExt vs =>
        Ok ({| f_blocks := f_blocks y ++ [{| b_live := true; b_ext := true; b_cells := vs |}];
               f_objs := f_objs y |}, ONone)
    | FProxy blk n =>                                                (* 181-183; [n] is ignored *)
        Ok ({| f_blocks := f_blocks y; f_objs := f_objs y ++ [Some {| f_data := blk; f_own := false |}] |}, ONone)
    | FLoad s vs =>
        (* 272-277; reading from an exhausted archive throws, the elements
           already read stay *)
        do r <- f_get y s;
        do h <- h_write (f_blocks y) (Some (f_data r)) (map Some (firstn N vs));
        if N <=? length vs then
          Ok ({| f_blocks := h; f_objs := upd (f_objs y) s (Some {| f_data := f_data r; f_own := true |}) |}, ONone)
        else Ok ({| f_blocks := h; f_objs := f_objs y |}, OThrew)
    | FCopyAssign d s =>                                             (* 190-198 *)
        do l <- f_get y d;
        do r <- f_get y s;
        if d =? s then Ok (y, ONone)
        else
          do cells <- h_read (f_blocks y) (Some (f_data r)) N;
          do h <- h_write (f_blocks y) (Some (f_data l)) cells;
          Ok ({| f_blocks := h;
                 f_objs := upd (f_objs y) d (Some {| f_data := f_data l; f_own := true |}) |}, ONone)
    | FMoveAssign d s | FSwap d s =>                                 (* 201-211 *)
        do l <- f_get y d;
        do r <- f_get y s;
        Ok ({| f_blocks := f_blocks y;
               f_objs := upd (upd (f_objs y) d (Some r)) s (Some l) |}, ONone)
    | FWrite s i v =>
        do r <- f_get y s;
        do kb <- h_cell (f_blocks y) (Some (f_data r)) i;
        let '(k, b) := kb in
        Ok ({| f_blocks := upd (f_blocks y) k
                 {| b_live := true; b_ext := b_ext b; b_cells := upd (b_cells b) i (Some v) |};
               f_objs := f_objs y |}, ONone)
    | FRead s i =>
        do r <- f_get y s;
        do kb <- h_cell (f_blocks y) (Some (f_data r)) i;
        do c <- rdc (b_cells (snd kb)) i;
        Ok (y, OVal c)
    | FDestroy s =>                                                  (* 185-187 *)
        do r <- f_get y s;
        do h <- (if f_own r then h_free (f_blocks y) (Some (f_data r)) else Ok (f_blocks y));
        Ok ({| f_blocks := h; f_objs := upd (f_objs y) s None |}, ONone)
    end.

  Fixpoint frun (y : fsys) (ops : list fop) : res (fsys * list (out T)) :=
    match ops with
    | [] => Ok (y, [])
    | o :: t =>
      do r <- fstep y o;
      let '(y1, x) := r in
      do r2 <- frun y1 t;
      let '(y2, xs) := r2 in
      Ok (y2, x :: xs)
    end.

End Fixed.
Arguments fsys : clear implicits.
Arguments fop : clear implicits.
