(** C01-C04: memory safety and value semantics of the heap storages
    (include/BlasBooster/Core/Storage.h).  Vocabulary: Storage_Spec.v. *)
From Verif Require Import Storage_Spec Storage_Proofs StorageFixed_Proofs Alias_Spec Alias_Proofs AliasF_Proofs.

(** C01.  Any program over owning storages that is legal at the level of values
    ([vrun] is defined) runs without undefined behaviour; and if it neither
    loads over an existing storage nor copy-constructs from a moved-from one,
    then once all its storages are destroyed every block has been released. *)
Theorem C01_storage_safe_and_leak_free :
  forall (T : Type) (ops : list (op T)) v xs,
    vrun [] ops = Some (v, xs) ->
    exists y, run sys0 ops = Ok (y, xs) /\
      (clean [] ops = true -> (forall x, In x v -> x = None) -> all_freed y).
Proof. exact (fun T ops v xs H => safe_and_leak_free ops v xs H). Qed.
Print Assumptions C01_storage_safe_and_leak_free.

Definition demo_ops : list (op nat) :=
  [OList [1; 2; 3]; OCopyCtor 0; OWrite 0 1 9; ORead 1 1; ORead 0 1; ODefault;
   OMoveAssign 2 0; OResize 0 5; OSwap 1 2; ORead 1 1; OCopyAssign 0 2; OCopyAssign 0 0;
   OMoveAssign 1 1; OResize 2 4; OFill 2 7; ORead 2 3; ODestroy 0; ODestroy 1; ODestroy 2].

Example C01_nonvacuous :
  clean [] demo_ops = true /\
  exists v xs, vrun [] demo_ops = Some (v, xs) /\ (forall x, In x v -> x = None) /\
    In (OVal (Some 2)) xs /\ In OThrew xs.
Proof.
  split; [reflexivity|].
  do 2 eexists. split; [vm_compute; reflexivity|]. split.
  - intros x [<-|[<-|[<-|[]]]]; reflexivity.
  - split; vm_compute; tauto.
Qed.

(** The leak-free part fails without the two exclusions: copy-constructing from
    a moved-from storage allocates a block that nobody releases. *)
Theorem C01_copy_of_moved_from_leaks_refuted :
  exists (ops : list (op nat)) v xs y,
    vrun [] ops = Some (v, xs) /\ (forall x, In x v -> x = None) /\
    run sys0 ops = Ok (y, xs) /\ ~ all_freed y.
Proof.
  exists [OSized 2; OMoveCtor 0; OCopyCtor 0; ODestroy 0; ODestroy 1; ODestroy 2].
  do 3 eexists. split; [vm_compute; reflexivity|]. split.
  - intros x [<-|[<-|[<-|[]]]]; reflexivity.
  - split; [vm_compute; reflexivity|].
    intros H. specialize (H _ (or_intror (or_introl eq_refl)) eq_refl). discriminate.
Qed.
Print Assumptions C01_copy_of_moved_from_leaks_refuted.

(** Loading over a storage that owns memory loses the old block. *)
Theorem C01_load_over_storage_leaks_refuted :
  exists (ops : list (op nat)) v xs y,
    vrun [] ops = Some (v, xs) /\ (forall x, In x v -> x = None) /\
    run sys0 ops = Ok (y, xs) /\ ~ all_freed y.
Proof.
  exists [OSized 2; OLoad 0 [5]; ODestroy 0].
  do 3 eexists. split; [vm_compute; reflexivity|]. split.
  - intros x [<-|[]]; reflexivity.
  - split; [vm_compute; reflexivity|].
    intros H. specialize (H _ (or_introl eq_refl) eq_refl). discriminate.
Qed.
Print Assumptions C01_load_over_storage_leaks_refuted.

(** C02.  What every call reports, and what each storage finally contains, is
    what the value-level specification [vrun] says. *)
Theorem C02_storage_value_semantics :
  forall (T : Type) (ops : list (op T)) v xs,
    vrun [] ops = Some (v, xs) ->
    exists y, run sys0 ops = Ok (y, xs) /\ view y = v.
Proof. exact (fun T ops v xs H => value_semantics ops v xs H). Qed.
Print Assumptions C02_storage_value_semantics.

Example C02_nonvacuous :
  exists v, vrun [] [OList [1; 2]; OCopyCtor 0; OWrite 0 0 8; ORead 1 0; OMoveCtor 1; ORead 2 1]
    = Some (v, [ONone; ONone; ONone; OVal (Some 1); ONone; OVal (Some 2)]) /\
    nth_error v 1 = Some (Some moved_from).
Proof. eexists. split; vm_compute; reflexivity. Qed.

(** C03.  Programs that also use caller memory, and proxies onto the memory of
    other storages.  The specification is Alias_Spec.v: every storage refers to
    cells of a region of memory, and the memory of a region the library obtained
    is there exactly as long as some storage is responsible for it.  Whenever the
    specification allows the program ([arun] is defined), the program runs without
    undefined behaviour, every call reports what the specification says, and at
    the end the memory is what the specification says ([memory_is]): same
    contents, caller memory never released. *)
Theorem C03_external_memory :
  forall (T : Type) (ops : list (op T)) a xs,
    arun a0 ops = Some (a, xs) ->
    exists y, run sys0 ops = Ok (y, xs) /\ memory_is (blocks y) a /\
      ((forall h, In h (handles a) -> h = None) -> no_stray a -> all_freed y).
Proof.
  intros T ops a xs H. destruct (alias_run ops a xs H) as (y & R & M). exists y. split; [exact R|]. split; [exact M|].
  intros D NS k Hk Hx. apply In_nth_error in Hk. destruct Hk as (i & Hi). destruct M as (L & M).
  destruct (nth_error (regions a) i) as [g|] eqn:Hg.
  - destruct (M i g Hg) as (k' & Hk' & _ & X & LV). rewrite Hi in Hk'. injection Hk' as <-. rewrite LV.
    unfold present. rewrite Hg. pose proof (NS g (nth_error_In _ _ Hg)) as K. destruct (r_kind g); try congruence.
    destruct (existsb (owns i) (handles a)) eqn:Q; auto. apply existsb_exists in Q. destruct Q as (h & Hh & O).
    rewrite (D h Hh) in O. discriminate.
  - apply nth_error_None in Hg. rewrite <- L in Hg. apply nth_error_None in Hg. congruence.
Qed.
Print Assumptions C03_external_memory.

Definition alias_ops : list (op nat) :=
  [OExtAlloc [Some 1; Some 2; Some 3]; OProxy 0 2; OList [5; 6]; OProxyOf 1; OWrite 2 1 8; ORead 1 1;
   OWrite 0 0 7; OConvCtor 0; ODefault; OCopyAssign 4 0; OWrite 4 1 9; ORead 0 1; ORead 3 1; OResize 4 9; OResize 0 1;
   OMoveAssign 4 1; ORead 2 0; OSwap 0 4; ORead 0 1; OFill 4 4;
   ODestroy 0; ODestroy 1; ODestroy 2; ODestroy 3; ODestroy 4].
(** Memory is shared as specified: the write through storage 2 is read through
    storage 1, the write through storage 4 through storage 0, the conversion
    copy (storage 3) is independent, resizing a storage over foreign memory
    throws, a proxy survives a move of its owner; and nothing is leaked. *)
Example C03_external_memory_nonvacuous :
  exists a xs, arun a0 alias_ops = Some (a, xs) /\ (forall h, In h (handles a) -> h = None) /\ no_stray a /\
    filter (fun x => match x with ONone => false | _ => true end) xs =
      [OVal (Some 8); OVal (Some 9); OVal (Some 2); OThrew; OThrew; OVal (Some 5); OVal (Some 8)] /\
    map r_kind (regions a) = [Caller; Obtained; Obtained] /\
    nth_error (regions a) 0 = Some (mkRegion Caller [Some 4; Some 4; Some 3]).
Proof.
  do 2 eexists. split; [vm_compute; reflexivity|]. split; [|split; [|vm_compute; auto]].
  - intros h [<-|[<-|[<-|[<-|[<-|[]]]]]]; reflexivity.
  - intros g [<-|[<-|[<-|[]]]]; discriminate.
Qed.

(** Every program whatsoever: legal or not, with any aliasing, no memory is
    released twice, no memory is released that the library did not obtain, and
    caller memory is never released. *)
Theorem C03_never_releases_wrongly :
  forall (T : Type) (ops : list (op T)),
    run (sys0 (T:=T)) ops <> UB DoubleFree /\ run (sys0 (T:=T)) ops <> UB WildFree /\
    (forall y xs, run (sys0 (T:=T)) ops = Ok (y, xs) -> forall k, In k (blocks y) -> b_ext k = true -> b_live k = true).
Proof. exact (fun T ops => never_bad_free ops). Qed.
Print Assumptions C03_never_releases_wrongly.

(** Stated on the machine: programs that [legal] describes step by step
    (no proxies onto other storages) keep caller memory intact and lose nothing
    unless an operation in [loses] occurs. *)
Theorem C03_caller_memory_intact :
  forall (T : Type) (ops : list (op T)),
    legal_run sys0 ops ->
    exists y xs, run sys0 ops = Ok (y, xs) /\ ext_intact y /\
      (never_loses sys0 ops -> all_destroyed y -> all_freed y).
Proof. exact (fun T ops H => proxy_safe ops H). Qed.
Print Assumptions C03_caller_memory_intact.

Lemma resize_foreign {T} (y : sys T) s o n :
  alive y s o -> st_own o = false -> n <> st_size o -> step y (OResize s n) = Ok (y, OThrew).
Proof.
  intros Ha Ho Hn. unfold step, s_resize. rewrite (proj2 (get_obj_alive _ _ _) Ha). cbn [bind].
  destruct (Nat.eqb_spec (st_size o) n); [congruence|]. now rewrite Ho.
Qed.

Theorem C03_external_memory_cannot_be_resized :
  forall (T : Type) (y : sys T) s o n,
    alive y s o -> st_own o = false -> n <> st_size o -> step y (OResize s n) = Ok (y, OThrew).
Proof. exact @resize_foreign. Qed.
Print Assumptions C03_external_memory_cannot_be_resized.

Definition ext_ops : list (op nat) :=
  [OExtAlloc [Some 1; Some 2]; OProxy 0 2; OWrite 0 1 7; OConvCtor 0; ODefault; OCopyAssign 2 0;
   ORead 2 1; OResize 2 9; ODestroy 0; ODestroy 1; ODestroy 2].

Example C03_nonvacuous : legal_run sys0 ext_ops /\ never_loses sys0 ext_ops.
Proof.
  split; simpl.
  - repeat (split; [first [exact I
        | (do 2 eexists; split; [reflexivity|]; simpl; lia)
        | (eexists; split; [reflexivity|]; split; [reflexivity|]; simpl; lia)
        | (eexists; split; [reflexivity|]; simpl; lia)
        | (split; eexists; reflexivity)
        | (eexists; reflexivity)]
      | intros y1 x E; vm_compute in E; injection E as <- <-]); exact I.
  - repeat (split; [first [exact (fun H => H) | tauto]
      | intros y1 x E; vm_compute in E; injection E as <- <-]); exact I.
Qed.

(** Copy-constructing from a storage over caller memory leaks. *)
Theorem C03_copy_of_proxy_leaks_refuted :
  exists (ops : list (op nat)) y xs,
    legal_run sys0 ops /\ run sys0 ops = Ok (y, xs) /\ all_destroyed y /\ ~ all_freed y.
Proof.
  exists [OExtAlloc [Some 1]; OProxy 0 1; OCopyCtor 0; ODestroy 0; ODestroy 1].
  do 2 eexists. split; [|split; [vm_compute; reflexivity|split]].
  - simpl. repeat (split; [first [exact I
        | (eexists; split; [reflexivity|]; split; [reflexivity|]; simpl; lia)
        | (eexists; reflexivity)]
      | intros y1 x E; vm_compute in E; injection E as <- <-]); exact I.
  - intros o [<-|[<-|[]]]; reflexivity.
  - intros H. specialize (H _ (or_intror (or_introl eq_refl)) eq_refl). discriminate.
Qed.
Print Assumptions C03_copy_of_proxy_leaks_refuted.

(** Assigning to a storage a proxy onto its own memory leaves it dangling: the
    next read is a use after free. *)
Theorem C03_assign_own_proxy_dangles_refuted :
  exists ops : list (op nat), run sys0 ops = UB UseAfterFree /\
    ops = [OList [1; 2]; OProxyOf 0; OCopyAssign 0 1; ORead 0 0].
Proof. eexists. split; [|reflexivity]. vm_compute; reflexivity. Qed.
Print Assumptions C03_assign_own_proxy_dangles_refuted.

(** C04.  Fixed-size storages.  Whenever the specification allows the program
    (no proxy or moved-from storage is copy-assigned a value or loaded into), it
    runs without undefined behaviour, reports what the specification says, the
    memory is what the specification says, and if all storages are destroyed and
    no list or source of the wrong length was given, exactly the memory the
    library obtained has been released. *)
Theorem C04_fixed_storage :
  forall (T : Type) (N : nat) (ops : list (fop T)) a xs,
    fspec_run N a0 ops = Some (a, xs) ->
    exists y, frun N fsys0 ops = Ok (y, xs) /\ memory_is (f_blocks y) a /\
      ((forall h, In h (handles a) -> h = None) -> no_stray a ->
       forall k, In k (f_blocks y) -> b_live k = b_ext k).
Proof.
  intros T N ops a xs H. destruct (fixed_alias_run N ops a xs H) as (y & R & M). exists y. split; [exact R|]. split; [exact M|].
  intros D NS k Hk. apply In_nth_error in Hk. destruct Hk as (i & Hi). destruct M as (L & M).
  destruct (nth_error (regions a) i) as [g|] eqn:Hg.
  - destruct (M i g Hg) as (k' & Hk' & _ & X & LV). rewrite Hi in Hk'. injection Hk' as <-. rewrite LV, X.
    unfold present. rewrite Hg. pose proof (NS g (nth_error_In _ _ Hg)) as K.
    destruct (r_kind g) eqn:RK; try congruence.
    apply not_true_is_false. intros E. apply existsb_exists in E. destruct E as (h & Ih & O).
    rewrite (D h Ih) in O. discriminate.
  - apply nth_error_None in Hg. assert (i < length (f_blocks y)) by (apply nth_error_Some; congruence). lia.
Qed.
Print Assumptions C04_fixed_storage.

(** The same, with the conditions stated step by step on the machine. *)
Theorem C04_fixed_storage_stepwise :
  forall (T : Type) (N : nat) (ops : list (fop T)),
    f_legal_run N fsys0 ops ->
    exists y xs, frun N fsys0 ops = Ok (y, xs) /\ (f_all_destroyed y -> f_all_freed y).
Proof. exact (fun T N ops H => fixed_safe N ops H). Qed.
Print Assumptions C04_fixed_storage_stepwise.

Definition fixed_ops : list (fop nat) :=
  [FList [1; 2]; FCopyCtor 0; FMoveCtor 0; FWrite 2 1 9; FCopyAssign 1 2; FRead 1 1;
   FMoveAssign 0 1; FRead 0 0; FDestroy 0; FDestroy 1; FDestroy 2].
(** With caller memory, a conversion, and loads (the last archive is too short). *)
Example C04_fixed_proxy_nonvacuous :
  exists a xs, fspec_run 2 a0 [FExt [Some 1; Some 2; Some 3]; FProxy 0 2; FCopyCtor 0; FWrite 0 1 9; FRead 1 1; FRead 0 1;
                               FConv [Some 4; Some 5]; FLoad 2 [6; 7]; FCopyAssign 1 2; FRead 1 0; FLoad 0 [8]; FRead 0 0; FMoveCtor 0;
                               FDestroy 0; FDestroy 1; FDestroy 2; FDestroy 3] = Some (a, xs) /\
    (forall h, In h (handles a) -> h = None) /\ no_stray a /\
    filter (fun x => match x with ONone => false | _ => true end) xs
      = [OVal (Some 2); OVal (Some 9); OVal (Some 6); OThrew; OVal (Some 8)].
Proof.
  do 2 eexists. split; [vm_compute; reflexivity|]. split; [|split; [|vm_compute; reflexivity]].
  - intros h [<-|[<-|[<-|[<-|[]]]]]; reflexivity.
  - intros g [<-|[<-|[<-|[]]]]; discriminate.
Qed.
Example C04_fixed_storage_nonvacuous :
  exists a xs, fspec_run 2 a0 fixed_ops = Some (a, xs) /\ (forall h, In h (handles a) -> h = None) /\ no_stray a /\
    filter (fun x => match x with ONone => false | _ => true end) xs = [OVal (Some 9); OVal (Some 1)].
Proof.
  do 2 eexists. split; [vm_compute; reflexivity|]. split; [|split; [|vm_compute; reflexivity]].
  - intros h [<-|[<-|[<-|[]]]]; reflexivity.
  - intros g [<-|[<-|[]]]; discriminate.
Qed.
Example C04_nonvacuous : f_legal_run 2 fsys0 fixed_ops.
Proof.
  simpl. repeat (split; [first [exact I | reflexivity
      | (split; eexists; (split; reflexivity))
      | (split; [eexists; (split; reflexivity) | lia])
      | (split; eexists; reflexivity)
      | (eexists; split; reflexivity)
      | (eexists; reflexivity)]
    | intros y1 x E; vm_compute in E; injection E as <- <-]); exact I.
Qed.

(** The unrestricted property fails: [b(move(a)); a = c;] makes two objects own
    one block. *)
Theorem C04_move_then_assign_double_free_refuted :
  exists ops : list (fop nat),
    ops = [FDefault; FMoveCtor 0; FList [5]; FCopyAssign 0 2; FDestroy 0; FDestroy 1] /\
    frun 1 fsys0 ops = UB DoubleFree.
Proof. eexists. split; [reflexivity|]. vm_compute; reflexivity. Qed.
Print Assumptions C04_move_then_assign_double_free_refuted.

(** Copy-assigning to a storage over caller memory makes it release that memory,
    and so does loading into one. *)
Theorem C04_assign_to_proxy_refuted :
  exists (T : Type) (v w : T),
    frun 1 fsys0 [FExt [Some v]; FProxy 0 1; FList [w]; FCopyAssign 0 1; FDestroy 0] = UB WildFree.
Proof. exists nat, 1, 2. vm_compute. reflexivity. Qed.
Print Assumptions C04_assign_to_proxy_refuted.
Theorem C04_load_into_proxy_refuted :
  exists (T : Type) (v w : T),
    frun 1 fsys0 [FExt [Some v]; FProxy 0 1; FLoad 0 [w]; FDestroy 0] = UB WildFree.
Proof. exists nat, 1, 2. vm_compute. reflexivity. Qed.
Print Assumptions C04_load_into_proxy_refuted.
(** The size given with the caller's memory is ignored: [N] elements are read. *)
Theorem C04_proxy_size_ignored_refuted :
  exists (T : Type) (v : T),
    frun 2 fsys0 [FExt [Some v]; FProxy 0 1; FCopyCtor 0] = UB OOBRead.
Proof. exists nat, 1. vm_compute. reflexivity. Qed.
Print Assumptions C04_proxy_size_ignored_refuted.

(** A value list of the wrong length throws and leaks the block. *)
Theorem C04_wrong_list_leaks_refuted :
  exists (ops : list (fop nat)) y xs,
    frun 2 fsys0 ops = Ok (y, xs) /\ xs = [OThrew] /\ f_all_destroyed y /\ ~ f_all_freed y.
Proof.
  exists [FList [1]]. do 2 eexists. split; [vm_compute; reflexivity|].
  split; [reflexivity|]. split; [intros o []|].
  intros H. specialize (H _ (or_introl eq_refl)). discriminate.
Qed.
Print Assumptions C04_wrong_list_leaks_refuted.
