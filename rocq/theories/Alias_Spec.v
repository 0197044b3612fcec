(** Specification of run-time sized and of compile-time sized heap storages that
    may share memory: proxies onto caller memory, proxies onto the memory of
    another storage, and moved-from fixed-size storages.

    The state is a list of memory regions and, per storage object, what it
    refers to.  Whether a region's memory is still there is not recorded: it
    follows from who holds it. *)
From Verif Require Import Storage_Model.

Section Alias.
  Context {T : Type}.

  (** Memory of the caller, memory obtained by a storage, memory a storage
      obtained and gave up without releasing it. *)
  Inductive kind := Caller | Obtained | Stray.
  Record region := mkRegion { r_kind : kind; r_cells : buf T }.

  (** What a storage refers to: nothing (it can be resized or not), [n] cells of
      a region it is responsible for, or [n] cells of a region it only uses. *)
  Inductive handle := HNone (resizable : bool) | HOwn (r n : nat) | HView (r n : nat).

  Record astate := mkA { regions : list region; handles : list (option handle) }.
  Definition a0 : astate := mkA [] [].

  Definition owns (i : nat) (h : option handle) : bool :=
    match h with Some (HOwn r _) => r =? i | _ => false end.
  (** Is the memory of region [i] there? *)
  Definition present (a : astate) (i : nat) : bool :=
    match nth_error (regions a) i with
    | None => false
    | Some g => match r_kind g with Obtained => existsb (owns i) (handles a) | _ => true end
    end.

  Definition hsize (h : handle) : nat := match h with HNone _ => 0 | HOwn _ n | HView _ n => n end.
  (** Is the storage responsible for its memory (can it be resized)? *)
  Definition free_to_resize (h : handle) : bool :=
    match h with HNone b => b | HOwn _ _ => true | HView _ _ => false end.
  (** The elements seen through a handle; [None]: the memory is gone. *)
  Definition contents (a : astate) (h : handle) : option (buf T) :=
    match h with
    | HNone _ => Some []
    | HOwn r n | HView r n =>
        match nth_error (regions a) r with
        | None => None
        | Some g => if present a r then Some (firstn n (r_cells g)) else None
        end
    end.

  Definition live (a : astate) (s : nat) : option handle :=
    match nth_error (handles a) s with Some (Some h) => Some h | _ => None end.
  Definition put (a : astate) (s : nat) (h : option handle) : astate :=
    mkA (regions a) (upd (handles a) s h).
  Definition add (a : astate) (h : handle) : astate := mkA (regions a) (handles a ++ [Some h]).
  Definition region_new (a : astate) (k : kind) (c : buf T) : astate :=
    mkA (regions a ++ [mkRegion k c]) (handles a).
  (** A fresh region for which the new handle is responsible. *)
  Definition fresh (a : astate) (c : buf T) : handle := HOwn (length (regions a)) (length c).
  (** Replace the cells of the region behind a handle. *)
  Definition write (a : astate) (h : handle) (f : buf T -> buf T) : astate :=
    match h with
    | HNone _ => a
    | HOwn r _ | HView r _ =>
        match nth_error (regions a) r with
        | None => a
        | Some g => mkA (upd (regions a) r (mkRegion (r_kind g) (f (r_cells g)))) (handles a)
        end
    end.

  (** One call.  [None]: the caller breaks the rules: a dead object is named, an
      index is not below the size, memory is used that is no longer there, or a
      proxy is larger than the caller's memory. *)
  Definition astep (a : astate) (o : op T) : option (astate * out T) :=
    match o with
    | ODefault => Some (add a (HNone true), ONone)
    | OSized n => Some (add (region_new a Obtained (repeat None n)) (fresh a (repeat None n)), ONone)
    | OList vs => Some (add (region_new a Obtained (map Some vs)) (fresh a (map Some vs)), ONone)
    | OCopyCtor s =>
        match live a s with
        | None => None
        | Some h =>
            match contents a h with
            | None => None
            | Some c =>
                (* the copy of a storage that is not responsible for its memory
                   is not responsible for its own copy either *)
                if free_to_resize h then Some (add (region_new a Obtained c) (fresh a c), ONone)
                else Some (add (region_new a Stray c) (HView (length (regions a)) (length c)), ONone)
            end
        end
    | OMoveCtor s =>
        match live a s with
        | None => None
        | Some h => Some (put (add a h) s (Some (HNone false)), ONone)
        end
    | OConvCtor s =>
        match live a s with
        | None => None
        | Some h =>
            match contents a h with
            | None => None
            | Some c => Some (add (region_new a Obtained c) (fresh a c), ONone)
            end
        end
    | OExtAlloc vs => Some (region_new a Caller vs, ONone)
    | OProxy r n =>
        match nth_error (regions a) r with
        | Some g =>
            match r_kind g with
            | Caller => if n <=? length (r_cells g) then Some (add a (HView r n), ONone) else None
            | _ => None
            end
        | None => None
        end
    | OProxyOf s =>
        match live a s with
        | None => None
        | Some h =>
            Some (add a (match h with HNone _ => HNone false | HOwn r n | HView r n => HView r n end), ONone)
        end
    | OResize s n =>
        match live a s with
        | None => None
        | Some h =>
            if hsize h =? n then Some (a, ONone)
            else if free_to_resize h then
              Some (put (region_new a Obtained (repeat None n)) s (Some (fresh a (repeat None n))), ONone)
            else Some (a, OThrew)
        end
    | OCopyAssign d s =>
        match live a d, live a s with
        | Some _, Some h =>
            if d =? s then Some (a, ONone)
            else if free_to_resize h then
              match contents a h with
              | None => None
              | Some c => Some (put (region_new a Obtained c) d (Some (fresh a c)), ONone)
              end
            else (* both now use the same memory *) Some (put a d (Some h), ONone)
        | _, _ => None
        end
    | OMoveAssign d s =>
        match live a d, live a s with
        | Some _, Some h => Some (put (put a d (Some h)) s (Some (HNone false)), ONone)
        | _, _ => None
        end
    | OSwap x z =>
        match live a x, live a z with
        | Some h, Some k => Some (put (put a x (Some k)) z (Some h), ONone)
        | _, _ => None
        end
    | OFill s v =>
        match live a s with
        | None => None
        | Some h =>
            match contents a h with
            | None => None
            | Some c => Some (write a h (fun b => repeat (Some v) (hsize h) ++ skipn (hsize h) b), ONone)
            end
        end
    | OWrite s i v =>
        match live a s with
        | None => None
        | Some h =>
            match contents a h with
            | None => None
            | Some c => if i <? length c then Some (write a h (fun b => upd b i (Some v)), ONone) else None
            end
        end
    | ORead s i =>
        match live a s with
        | None => None
        | Some h =>
            match contents a h with
            | None => None
            | Some c => match nth_error c i with Some v => Some (a, OVal v) | None => None end
            end
        end
    | OLoad s vs =>
        match live a s with
        | None => None
        | Some h =>
            (* the old memory is forgotten *)
            let g := match h with
                     | HOwn r _ =>
                         match nth_error (regions a) r with
                         | Some g => upd (regions a) r (mkRegion Stray (r_cells g))
                         | None => regions a
                         end
                     | _ => regions a
                     end in
            Some (put (region_new (mkA g (handles a)) Obtained (map Some vs)) s (Some (fresh a (map Some vs))), ONone)
        end
    | ODestroy s =>
        match live a s with
        | None => None
        | Some _ => Some (put a s None, ONone)
        end
    end.

  Fixpoint arun (a : astate) (ops : list (op T)) : option (astate * list (out T)) :=
    match ops with
    | [] => Some (a, [])
    | o :: t =>
        match astep a o with
        | None => None
        | Some (a1, x) => match arun a1 t with None => None | Some (a2, xs) => Some (a2, x :: xs) end
        end
    end.

  (** The machine's memory is what the specification says: the same regions with
      the same contents; caller memory never released; memory the library
      obtained still allocated exactly if it is [present]. *)
  Definition memory_is (bs : list (block T)) (a : astate) : Prop :=
    length bs = length (regions a) /\
    forall i g, nth_error (regions a) i = Some g ->
      exists k, nth_error bs i = Some k /\ b_cells k = r_cells g /\
        b_ext k = (match r_kind g with Caller => true | _ => false end) /\ b_live k = present a i.

  Definition no_stray (a : astate) : Prop := forall g, In g (regions a) -> r_kind g <> Stray.

  (** ** Compile-time sized storages (size [N]) *)
  Definition fspec (N : nat) (a : astate) (o : fop T) : option (astate * out T) :=
    match o with
    | FDefault => Some (add (region_new a Obtained (repeat None N)) (HOwn (length (regions a)) N), ONone)
    | FList vs =>
        if length vs =? N then Some (add (region_new a Obtained (map Some vs)) (HOwn (length (regions a)) N), ONone)
        else (* throws; the memory it obtained is lost *)
          Some (region_new a Stray (repeat None N), OThrew)
    | FCopyCtor s =>
        match live a s with
        | None => None
        | Some h =>
            match contents a h with
            | None => None
            | Some c => Some (add (region_new a Obtained c) (HOwn (length (regions a)) N), ONone)
            end
        end
    | FMoveCtor s =>
        (* the source goes on using the memory, without being responsible for it *)
        match live a s with
        | Some (HOwn r n) => Some (put (add a (HOwn r n)) s (Some (HView r n)), ONone)
        | Some (HView r n) => Some (add a (HView r n), ONone)
        | _ => None
        end
    | FConv cs =>
        if length cs =? N then Some (add (region_new a Obtained cs) (HOwn (length (regions a)) N), ONone)
        else Some (region_new a Stray (repeat None N), OThrew)
    | FExt vs => Some (region_new a Caller vs, ONone)
    | FProxy r _ =>
        match nth_error (regions a) r with
        | Some g =>
            match r_kind g with
            | Caller => if N <=? length (r_cells g) then Some (add a (HView r N), ONone) else None
            | _ => None
            end
        | None => None
        end
    | FLoad s vs =>
        match live a s with
        | None => None
        | Some h =>
            match contents a h with
            | None => None
            | Some _ =>
                if N <=? length vs then
                  match h with
                  | HOwn _ _ => Some (write a h (fun _ => map Some (firstn N vs)), ONone)
                  | _ => None       (* loading into a proxy or moved-from storage is excluded *)
                  end
                else Some (write a h (fun b => map Some vs ++ skipn (length vs) b), OThrew)
            end
        end
    | FCopyAssign d s =>
        match live a d, live a s with
        | Some l, Some h =>
            if d =? s then Some (a, ONone)
            else
              match l, contents a h with
              | HOwn _ _, Some c => Some (write a l (fun _ => c), ONone)
              | _, _ => None      (* assigning a value to a proxy or moved-from storage is excluded *)
              end
        | _, _ => None
        end
    | FMoveAssign d s | FSwap d s =>
        match live a d, live a s with
        | Some h, Some k => Some (put (put a d (Some k)) s (Some h), ONone)
        | _, _ => None
        end
    | FWrite s i v =>
        match live a s with
        | None => None
        | Some h =>
            match contents a h with
            | None => None
            | Some c => if i <? length c then Some (write a h (fun b => upd b i (Some v)), ONone) else None
            end
        end
    | FRead s i =>
        match live a s with
        | None => None
        | Some h =>
            match contents a h with
            | None => None
            | Some c => match nth_error c i with Some v => Some (a, OVal v) | None => None end
            end
        end
    | FDestroy s =>
        match live a s with
        | None => None
        | Some _ => Some (put a s None, ONone)
        end
    end.

  Fixpoint fspec_run (N : nat) (a : astate) (ops : list (fop T)) : option (astate * list (out T)) :=
    match ops with
    | [] => Some (a, [])
    | o :: t =>
        match fspec N a o with
        | None => None
        | Some (a1, x) => match fspec_run N a1 t with None => None | Some (a2, xs) => Some (a2, x :: xs) end
        end
    end.
End Alias.
Arguments region : clear implicits.
Arguments astate : clear implicits.
