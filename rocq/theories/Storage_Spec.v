(** Specification of storages that does not mention blocks, pointers or the
    ownership flag: a program sees, per storage object, a list of elements. *)
From Verif Require Export Storage_Model.

Section Spec.
  Context {T : Type}.

  (** What a program can know of one storage: its elements ([None] =
      indeterminate) and whether it may be resized.  Only the target of a move
      operation (a moved-from storage) may not. *)
  Record vobj := { v_vals : buf T; v_resizable : bool }.

  (** [None] = destroyed. *)
  Definition vsys := list (option vobj).

  Definition moved_from : vobj := {| v_vals := []; v_resizable := false |}.

  Definition vget (v : vsys) (s : nat) : option vobj :=
    match nth_error v s with Some (Some x) => Some x | _ => None end.

  (** One call under value semantics.  [None]: the call is not a legal use of
      owning storages: it names a destroyed object, an index is not below the
      size, or it involves caller-supplied memory. *)
  Definition vstep (v : vsys) (o : op T) : option (vsys * out T) :=
    match o with
    | ODefault => Some (v ++ [Some {| v_vals := []; v_resizable := true |}], ONone)
    | OSized n => Some (v ++ [Some {| v_vals := repeat None n; v_resizable := true |}], ONone)
    | OList vs => Some (v ++ [Some {| v_vals := map Some vs; v_resizable := true |}], ONone)
    | OCopyCtor s =>
        match vget v s with
        | Some x => Some (v ++ [Some x], ONone)
        | None => None
        end
    | OConvCtor s =>
        match vget v s with
        | Some x => Some (v ++ [Some {| v_vals := v_vals x; v_resizable := true |}], ONone)
        | None => None
        end
    | OMoveCtor s =>
        match vget v s with
        | Some x => Some (upd (v ++ [Some x]) s (Some moved_from), ONone)
        | None => None
        end
    | OResize s n =>
        match vget v s with
        | Some x =>
            if length (v_vals x) =? n then Some (v, ONone)
            else if v_resizable x then
              Some (upd v s (Some {| v_vals := repeat None n; v_resizable := true |}), ONone)
            else Some (v, OThrew)
        | None => None
        end
    | OCopyAssign d s =>
        match vget v d, vget v s with
        | Some _, Some x => Some (upd v d (Some x), ONone)
        | _, _ => None
        end
    | OMoveAssign d s =>
        match vget v d, vget v s with
        | Some _, Some x => Some (upd (upd v d (Some x)) s (Some moved_from), ONone)
        | _, _ => None
        end
    | OSwap a b =>
        match vget v a, vget v b with
        | Some x, Some z => Some (upd (upd v a (Some z)) b (Some x), ONone)
        | _, _ => None
        end
    | OFill s c =>
        match vget v s with
        | Some x => Some (upd v s (Some {| v_vals := repeat (Some c) (length (v_vals x));
                                           v_resizable := v_resizable x |}), ONone)
        | None => None
        end
    | OWrite s i c =>
        match vget v s with
        | Some x =>
            if i <? length (v_vals x) then
              Some (upd v s (Some {| v_vals := upd (v_vals x) i (Some c);
                                     v_resizable := v_resizable x |}), ONone)
            else None
        | None => None
        end
    | ORead s i =>
        match vget v s with
        | Some x =>
            match nth_error (v_vals x) i with
            | Some c => Some (v, OVal c)
            | None => None
            end
        | None => None
        end
    | OLoad s vs =>
        match vget v s with
        | Some _ => Some (upd v s (Some {| v_vals := map Some vs; v_resizable := true |}), ONone)
        | None => None
        end
    | ODestroy s =>
        match vget v s with
        | Some _ => Some (upd v s None, ONone)
        | None => None
        end
    | OExtAlloc _ | OProxy _ _ | OProxyOf _ => None
    end.

  Fixpoint vrun (v : vsys) (ops : list (op T)) : option (vsys * list (out T)) :=
    match ops with
    | [] => Some (v, [])
    | o :: t =>
      match vstep v o with
      | None => None
      | Some (v1, x) =>
        match vrun v1 t with
        | None => None
        | Some (v2, xs) => Some (v2, x :: xs)
        end
      end
    end.

  (** Calls that the no-leak theorem excludes: loading from an archive into an
      existing storage, and copy-constructing from a moved-from storage. *)
  Definition clean_op (v : vsys) (o : op T) : bool :=
    match o with
    | OLoad _ _ => false
    | OCopyCtor s => match vget v s with Some x => v_resizable x | None => true end
    | _ => true
    end.

  Fixpoint clean (v : vsys) (ops : list (op T)) : bool :=
    match ops with
    | [] => true
    | o :: t =>
      clean_op v o &&
      match vstep v o with Some (v1, _) => clean v1 t | None => true end
    end.

  (** The elements a program reads through a storage object. *)
  Definition seen (h : list (block T)) (o : stor) : buf T :=
    match st_data o with
    | None => []
    | Some b => match nth_error h b with
                | Some k => firstn (st_size o) (b_cells k)
                | None => []
                end
    end.

  Definition view (y : sys T) : vsys :=
    map (option_map (fun o => {| v_vals := seen (blocks y) o; v_resizable := st_own o |})) (objs y).

  Definition all_destroyed (y : sys T) : Prop := forall o, In o (objs y) -> o = None.

  (** Every block obtained from [allocate] has been released. *)
  Definition all_freed (y : sys T) : Prop :=
    forall k, In k (blocks y) -> b_ext k = false -> b_live k = false.

  (** ** Programs that also use caller-supplied memory *)

  (** The caller obeys the rules of C++ and of the API: live objects, indices
      below the size, proxies only onto caller memory that is large enough. *)
  Definition alive (y : sys T) (s : nat) (o : stor) : Prop :=
    nth_error (objs y) s = Some (Some o).

  Definition legal (y : sys T) (o : op T) : Prop :=
    match o with
    | ODefault | OSized _ | OList _ | OExtAlloc _ => True
    | OCopyCtor s | OMoveCtor s | OConvCtor s | OResize s _ | OFill s _
    | OLoad s _ | ODestroy s => exists x, alive y s x
    | OWrite s i _ | ORead s i => exists x, alive y s x /\ i < st_size x
    | OCopyAssign d s | OMoveAssign d s | OSwap d s =>
        (exists x, alive y d x) /\ (exists x, alive y s x)
    | OProxy blk n =>
        exists k, nth_error (blocks y) blk = Some k /\ b_ext k = true /\ n <= length (b_cells k)
    | OProxyOf _ => False
    end.

  Fixpoint legal_run (y : sys T) (ops : list (op T)) : Prop :=
    match ops with
    | [] => True
    | o :: t => legal y o /\ (forall y1 x, step y o = Ok (y1, x) -> legal_run y1 t)
    end.

  (** The two calls that lose a block: copy construction from a storage that
      does not own its memory, and loading over a storage that owns a block. *)
  Definition loses (y : sys T) (o : op T) : Prop :=
    match o with
    | OCopyCtor s => exists x, alive y s x /\ st_own x = false
    | OLoad s _ => exists x, alive y s x /\ st_own x = true /\ st_data x <> None
    | _ => False
    end.

  Fixpoint never_loses (y : sys T) (ops : list (op T)) : Prop :=
    match ops with
    | [] => True
    | o :: t => ~ loses y o /\ (forall y1 x, step y o = Ok (y1, x) -> never_loses y1 t)
    end.

  (** Caller memory is still there. *)
  Definition ext_intact (y : sys T) : Prop :=
    forall k, In k (blocks y) -> b_ext k = true -> b_live k = true.
End Spec.
Arguments vobj : clear implicits.
Arguments vsys : clear implicits.

Section FSpec.
  Context {T : Type}.
  Variable N : nat.
  Definition f_alive (y : fsys T) s o := nth_error (f_objs y) s = Some (Some o).

  (** A legal use of fixed-size storages in which a moved-from object (one that
      no longer owns memory) is only ever destroyed, swapped or move-assigned,
      and value lists have the right length. *)
  Definition f_legal (y : fsys T) (o : fop T) : Prop :=
    let owner s := exists x, f_alive y s x /\ f_own x = true in
    match o with
    | FDefault => True
    | FList vs => length vs = N
    | FConv cs => length cs = N
    | FExt _ | FProxy _ _ => False
    | FLoad s vs => owner s /\ N <= length vs
    | FCopyCtor s | FMoveCtor s => owner s
    | FCopyAssign d s => owner d /\ owner s
    | FMoveAssign d s | FSwap d s => (exists x, f_alive y d x) /\ (exists x, f_alive y s x)
    | FWrite s i _ | FRead s i => owner s /\ i < N
    | FDestroy s => exists x, f_alive y s x
    end.
  Fixpoint f_legal_run (y : fsys T) (ops : list (fop T)) : Prop :=
    match ops with
    | [] => True
    | o :: t => f_legal y o /\ (forall y1 x, fstep N y o = Ok (y1, x) -> f_legal_run y1 t)
    end.
  Definition f_all_destroyed (y : fsys T) : Prop := forall o, In o (f_objs y) -> o = None.
  Definition f_all_freed (y : fsys T) : Prop := forall k, In k (f_blocks y) -> b_live k = false.
End FSpec.
