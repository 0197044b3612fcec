(** C81: what happens when memory runs out (std::bad_alloc). *)
From Verif Require Import BaseLemmas Storage_Spec Storage_Proofs Alloc_Spec Alloc_Proofs AllocM_Model.

(** With no failure, the programs of Storage_Model.v. *)
Theorem C81_no_failure : forall (T : Type) (ops : list (op T)) (y : sys T),
  arun y (map (fun o => (o, true)) ops) = do r <- run y ops; Ok (fst r, map AOut (snd r)).
Proof.
  intros T ops. induction ops as [|o t IH]; intros y; simpl; [reflexivity|].
  destruct (step y o) as [[y1 x]| | | |]; simpl; auto. rewrite IH.
  destruct (run y1 t) as [[y2 xs]| | | |]; reflexivity.
Qed.
Print Assumptions C81_no_failure.

(** Programs over owning storages in which the failing calls are those of
    Alloc_Spec.v ([wrun] is defined): the program runs on, nothing is undefined,
    and state and reports are those of the program without the failed calls; in
    particular nothing is leaked. *)
Theorem C81_survivable :
  forall (T : Type) (cs : list (op T * bool)) v g xs,
    wrun [] [] cs = Some (v, g, xs) ->
    exists y, arun sys0 cs = Ok (y, xs) /\ view y = v /\
      run sys0 (survivors cs xs) = Ok (y, reports xs) /\
      (clean [] (survivors cs xs) = true -> (forall x, In x v -> x = None) -> all_freed y).
Proof.
  intros T cs v g xs W. destruct (wrun_ok sys0 [] cs v g xs InvV0 HG0 W) as (y & A & R & V & E & _).
  exists y. split; [exact A|]. split; [exact E|]. split; [exact R|]. intros C D.
  destruct (safe_and_leak_free _ _ _ V) as (y' & R' & L). rewrite R in R'. injection R' as <-. now apply L.
Qed.
Print Assumptions C81_survivable.

Definition oom_demo : list (op nat * bool) :=
  [(OList [1; 2; 3], true); (OSized 9, false); (OCopyCtor 0, false); (ODefault, true); (OResize 1 4, false);
   (OCopyAssign 1 0, false); (OCopyAssign 1 0, true); (ORead 1 2, true); (OLoad 1 [4; 5; 6], false); (ORead 1 2, true);
   (OMoveCtor 0, false); (OResize 0 7, false); (OCopyAssign 0 1, false); (OSwap 0 1, false);
   (ODestroy 0, false); (ODestroy 1, true); (ODestroy 2, true)].
Example C81_survivable_nonvacuous :
  exists v g xs, wrun [] [] oom_demo = Some (v, g, xs) /\ (forall x, In x v -> x = None) /\
    clean [] (survivors oom_demo xs) = true /\
    xs = [AOut ONone; ABad; ABad; AOut ONone; ABad; ABad; AOut ONone; AOut (OVal (Some 3)); ABad; AOut (OVal (Some 3));
          AOut ONone; AOut OThrew; ABad; AOut ONone; AOut ONone; AOut ONone; AOut ONone].
Proof.
  do 3 eexists. split; [vm_compute; reflexivity|]. split; [|split; vm_compute; reflexivity].
  intros x [<-|[<-|[<-|[]]]]; reflexivity.
Qed.

(** The other failing calls.  After any such program, a failed resize of a storage
    that holds memory cannot be survived: destroying the storage releases its
    memory twice; so does assigning to it; reading from it reads released memory. *)
Theorem C81_failed_resize_refuted :
  forall (T : Type) (cs : list (op T * bool)) v g xs s x n,
    wrun [] [] cs = Some (v, g, xs) -> vget v s = Some x -> nth s g false = true -> length (v_vals x) <> n ->
    let after := cs ++ [(OResize s n, false)] in
    (exists y, arun sys0 after = Ok (y, xs ++ [ABad])) /\
    arun sys0 (after ++ [(ODestroy s, true)]) = UB DoubleFree /\
    (forall i, arun sys0 (after ++ [(ORead s i, true)]) = UB UseAfterFree) /\
    (forall d z, vget v d = Some z -> arun sys0 (after ++ [(OMoveAssign s d, true)]) = UB DoubleFree).
Proof.
  intros T cs v g xs s x n W V H N after. destruct (wrun_ok sys0 [] cs v g xs InvV0 HG0 W) as (y & A & _ & _ & <- & I & G).
  destruct (failed_resize y g s x n I G V H N) as (y1 & S & D).
  assert (R : arun sys0 after = Ok (y1, xs ++ [ABad])).
  { unfold after. rewrite arun_app, A. cbn [bind arun]. rewrite S. reflexivity. }
  split; [exists y1; exact R|]. split; [|split].
  - rewrite arun_app, R. cbn [bind arun astep]. rewrite (dangling_destroy y1 s D). reflexivity.
  - intros i. rewrite arun_app, R. cbn [bind arun astep]. rewrite (dangling_read y1 s i D). reflexivity.
  - intros d z Z. rewrite arun_app, R. cbn [bind arun astep].
    apply vget_view in Z. destruct Z as (r & Al & _).
    assert (Al1 : alive y1 d r).
    { unfold astep in S. destruct (get_obj y s) as [q| | | |]; cbn [bind] in S; try discriminate.
      destruct (st_size q =? n); [discriminate|]. destruct (negb (st_own q)); [discriminate|].
      destruct (match st_data q with Some _ => _ | None => _ end); cbn [bind] in S; try discriminate.
      injection S as <-. exact Al. }
    rewrite (dangling_move_into y1 s d r D Al1). reflexivity.
Qed.
Print Assumptions C81_failed_resize_refuted.

Theorem C81_failed_assignment_refuted :
  forall (T : Type) (cs : list (op T * bool)) v g xs d s x z,
    wrun [] [] cs = Some (v, g, xs) -> vget v d = Some x -> vget v s = Some z -> d <> s ->
    nth d g false = true -> v_resizable z = true ->
    let after := cs ++ [(OCopyAssign d s, false)] in
    (exists y, arun sys0 after = Ok (y, xs ++ [ABad])) /\
    arun sys0 (after ++ [(ODestroy d, true)]) = UB DoubleFree /\
    (forall i, arun sys0 (after ++ [(ORead d i, true)]) = UB UseAfterFree).
Proof.
  intros T cs v g xs d s x z W V Z N H R after. destruct (wrun_ok sys0 [] cs v g xs InvV0 HG0 W) as (y & A & _ & _ & <- & I & G).
  destruct (failed_copy y g d s x z I G V Z H R N) as (y1 & S & D).
  assert (E : arun sys0 after = Ok (y1, xs ++ [ABad])).
  { unfold after. rewrite arun_app, A. cbn [bind arun]. rewrite S. reflexivity. }
  split; [exists y1; exact E|]. split.
  - rewrite arun_app, E. cbn [bind arun astep]. rewrite (dangling_destroy y1 d D). reflexivity.
  - intros i. rewrite arun_app, E. cbn [bind arun astep]. rewrite (dangling_read y1 d i D). reflexivity.
Qed.
Print Assumptions C81_failed_assignment_refuted.

Example C81_failed_nonvacuous :
  exists v g xs x z, wrun [] [] [(OList [1; 2; 3], true); (OCopyCtor 0, true); (OSized 8, false)] = Some (v, g, xs) /\
    vget v 0 = Some x /\ vget v 1 = Some z /\ nth 0 g false = true /\ v_resizable z = true /\ length (v_vals x) <> 4.
Proof. do 5 eexists. split; [vm_compute; reflexivity|]. repeat (split; [reflexivity|]). discriminate. Qed.

(** A failed load: the storage already has the size of the archive.  If that is
    larger than its memory, reading the elements it claims to have reads beyond
    the memory; if not, it shows the beginning of its old contents, and can be
    destroyed. *)
Theorem C81_failed_load_refuted :
  forall (T : Type) (cs : list (op T * bool)) v g xs s x vs,
    wrun [] [] cs = Some (v, g, xs) -> vget v s = Some x -> nth s g false = true ->
    let after := cs ++ [(OLoad s vs, false)] in
    (exists y o, arun sys0 after = Ok (y, xs ++ [ABad]) /\ alive y s o /\ st_size o = length vs /\
       (length vs <= length (v_vals x) -> seen (blocks y) o = firstn (length vs) (v_vals x))) /\
    (length (v_vals x) < length vs -> arun sys0 (after ++ [(ORead s (length (v_vals x)), true)]) = UB OOBRead).
Proof.
  intros T cs v g xs s x vs W V H after. destruct (wrun_ok sys0 [] cs v g xs InvV0 HG0 W) as (y & A & _ & _ & <- & I & G).
  apply vget_view in V. destruct V as (r & Al & ->). rewrite (hg_nth _ _ _ _ G Al) in H. unfold resp in H.
  apply andb_true_iff in H. destruct H as [Ow D]. destruct (st_data r) as [p|] eqn:P; [|discriminate].
  pose proof (inv_ok _ (proj1 I) _ _ Al) as K. unfold obj_ok in K. rewrite P, Ow in K. destruct K as (k & Hk & L & E & Len).
  set (o1 := {| st_data := st_data r; st_size := length vs; st_own := st_own r |}).
  assert (R : arun sys0 after = Ok (set_obj y s (Some o1), xs ++ [ABad])).
  { unfold after. rewrite arun_app, A. cbn [bind arun astep]. rewrite (proj2 (get_obj_alive _ _ _) Al). reflexivity. }
  assert (Al1 : alive (set_obj y s (Some o1)) s o1) by (apply alive_upd_eq; eapply alive_lt; eauto).
  assert (SE : seen (blocks y) r = b_cells k).
  { unfold seen. rewrite P, Hk, <- Len. apply firstn_all. }
  cbn [v_vals]. rewrite SE. split.
  - exists (set_obj y s (Some o1)), o1. split; [exact R|]. split; [exact Al1|]. split; [reflexivity|].
    intros Q. unfold seen, o1, set_obj. cbn [st_data st_size blocks]. now rewrite P, Hk.
  - intros Q. rewrite arun_app, R. cbn [bind arun astep step]. unfold s_read.
    rewrite (proj2 (get_obj_alive _ _ _) Al1). cbn [bind]. unfold h_cell, o1, set_obj. cbn [st_data blocks].
    rewrite P, Hk, L. cbn [negb]. now rewrite Nat.ltb_irrefl.
Qed.
Print Assumptions C81_failed_load_refuted.

(** Compile-time sized storages allocate only in constructors: any program,
    whatever fails, does what it does without the failed calls. *)
Fixpoint f_survivors {T} (cs : list (fop T * bool)) (xs : list (aout T)) : list (fop T) :=
  match cs, xs with
  | c :: t, AOut _ :: ys => fst c :: f_survivors t ys
  | _ :: t, ABad :: ys => f_survivors t ys
  | _, _ => []
  end.
Theorem C81_fixed_storages :
  forall (T : Type) (N : nat) (cs : list (fop T * bool)) (y y1 : fsys T) xs,
    afrun N y cs = Ok (y1, xs) -> frun N y (f_survivors cs xs) = Ok (y1, reports xs).
Proof.
  intros T N cs. induction cs as [|[o ok] t IH]; intros y y1 xs E.
  - injection E as <- <-. reflexivity.
  - cbn [afrun] in E. destruct (afstep N y (o, ok)) as [[y2 x]| | | |] eqn:S; cbn [bind] in E; try discriminate.
    destruct (afrun N y2 t) as [[y3 ys]| | | |] eqn:R; cbn [bind] in E; try discriminate. injection E as <- <-.
    apply IH in R. cbn [f_survivors reports].
    assert (U : (do r <- fstep N y o; Ok (fst r, AOut (snd r))) = Ok (y2, x) ->
                frun N y match x with AOut _ => fst (o, ok) :: f_survivors t ys | ABad => f_survivors t ys end
                = Ok (y3, match x with AOut z => z :: reports ys | ABad => reports ys end)).
    { intros F. destruct (fstep N y o) as [[y4 z]| | | |] eqn:F0; cbn [bind] in F; try discriminate.
      cbn [fst snd] in F. injection F as -> <-. cbn [frun fst]. rewrite F0. cbn [bind]. rewrite R. reflexivity. }
    unfold afstep in S. destruct ok; [exact (U S)|].
    destruct o; try exact (U S); try (injection S as <- <-; exact R).
    destruct (f_get y s); cbn [bind] in S; try discriminate. injection S as <- <-. exact R.
Qed.
Print Assumptions C81_fixed_storages.
Example C81_fixed_storages_nonvacuous :
  exists y, afrun 2 fsys0 [(FList [1; 2], true); (FCopyCtor 0, false); (FDefault, false); (FCopyCtor 0, true); (FRead 1 1, true)]
    = Ok (y, [AOut ONone; ABad; ABad; AOut ONone; AOut (OVal (Some 2))]).
Proof. eexists. vm_compute. reflexivity. Qed.

(** Dense matrices: a failing constructor changes nothing, in any state. *)
Section Dense.
Context {T N : Type} (o : orient) (dbg : bool) (norm_of : nat -> nat -> buf T -> res N) (eqv : T -> T -> bool).
Notation amrun := (amrun o dbg norm_of eqv).

Theorem C81_dense_constructors : forall (m : msys T N) r c ur uc,
  amrun m [(MSized r c, false)] = Ok (m, [AMBad]) /\
  amrun m [(MSizedB r c ur uc, false)] = Ok (m, [AMBad]) /\
  (forall s k h, alive (m_sys m) s k -> nth_error (m_hdr m) s = Some h -> amrun m [(MCopyCtor s, false)] = Ok (m, [AMBad])).
Proof.
  intros m r c ur uc. split; [reflexivity|]. split; [reflexivity|]. intros s k h A H. simpl.
  unfold hdr_of. rewrite H. cbn [bind]. rewrite (proj2 (get_obj_alive _ _ _) A). reflexivity.
Qed.

(** The numbering of matrices: each has a header and a storage. *)
Definition in_step (m : msys T N) : Prop := length (m_hdr m) = length (objs (m_sys m)).

Lemma made (m : msys T N) r c : in_step m ->
  mstep o dbg norm_of eqv m (MSized r c) =
    Ok (mkMsys {| blocks := blocks (m_sys m) ++ [{| b_live := true; b_ext := false; b_cells := alloc (r * c) |}];
                  objs := objs (m_sys m) ++ [Some {| st_data := Some (length (blocks (m_sys m))); st_size := r * c; st_own := true |}] |}
               (m_hdr m ++ [mkHdr r c (r * c) 0 0 None]), MNone).
Proof.
  intros _. cbn [mstep]. unfold with_storage. cbn [step bind]. unfold s_fresh, h_alloc, new_obj, alloc. rewrite repeat_length. reflexivity.
Qed.

Lemma snoc_at {A} (l : list A) n x : n = length l -> nth_error (l ++ [x]) n = Some x.
Proof. intros ->. apply nth_error_snoc_last. Qed.
Lemma upd_snoc {A} (l : list A) n x z : n = length l -> upd (l ++ [x]) n z = l ++ [z].
Proof. intros ->. induction l as [|a l IH]; simpl; [reflexivity|now rewrite IH]. Qed.

(** In any state: make a matrix, resize it to another number of elements, fail.
    The matrix reports the new dimensions and cannot even be destroyed. *)
Theorem C81_dense_resize_refuted : forall (m : msys T N) r c r' c',
  in_step m -> r * c <> r' * c' ->
  let s := length (m_hdr m) in
  (exists m1, amrun m [(MSized r c, true); (MResize s r' c', false); (MDims s, true)] = Ok (m1, [AMOut MNone; AMBad; AMOut (MPair r' c')])) /\
  amrun m [(MSized r c, true); (MResize s r' c', false); (MDestroy s, true)] = UB DoubleFree.
Proof.
  intros m r c r' c' I N0 s.
  assert (B : s = length (objs (m_sys m))) by exact I.
  assert (S : exists m1 hd, amrun m [(MSized r c, true); (MResize s r' c', false)] = Ok (m1, [AMOut MNone; AMBad]) /\
     nth_error (m_hdr m1) s = Some hd /\ h_rows hd = r' /\ h_cols hd = c' /\ dangling (m_sys m1) s).
  { cbn [AllocM_Model.amrun amstep]. rewrite (made m r c I). cbn [bind fst snd m_sys m_hdr]. unfold hdr_of. cbn [m_hdr].
    rewrite (snoc_at (m_hdr m) s _ eq_refl). cbn [bind]. unfold failing. cbn [m_sys astep get_obj objs blocks].
    unfold get_obj. cbn [objs]. rewrite (snoc_at (objs (m_sys m)) s _ B). cbn [bind st_size st_own st_data negb].
    destruct (Nat.eqb_spec (r * c) (r' * c')); [contradiction|].
    unfold h_free. rewrite nth_error_snoc_last. cbn [b_ext b_live bind].
    do 2 eexists. split; [reflexivity|]. cbn [m_hdr m_sys]. split; [rewrite (upd_snoc _ s _ _ eq_refl); apply (snoc_at _ s _ eq_refl)|].
    split; [reflexivity|]. split; [reflexivity|]. do 3 eexists. split; [unfold alive; cbn [objs]; apply (snoc_at _ s _ B)|].
    split; [reflexivity|]. split; [reflexivity|]. split; [cbn [blocks]; rewrite (upd_snoc _ _ _ _ eq_refl); apply nth_error_snoc_last|]. split; reflexivity. }
  destruct S as (m1 & hd & S & Hh & Hr & Hc & D).
  assert (AP : forall c1, amrun m ([(MSized r c, true); (MResize s r' c', false)] ++ [c1]) =
     do q <- amstep o dbg norm_of eqv m1 c1; Ok (fst q, [AMOut MNone; AMBad] ++ [snd q])).
  { intros c1. cbn [AllocM_Model.amrun app] in *.
    destruct (amstep _ _ _ _ m (MSized r c, true)) as [[ma xa]| | | |]; cbn [bind] in *; try discriminate.
    destruct (amstep _ _ _ _ ma _) as [[mb xb]| | | |]; cbn [bind] in *; try discriminate.
    injection S as -> -> ->. destruct (amstep _ _ _ _ m1 c1) as [[mc xc]| | | |]; reflexivity. }
  split.
  - exists m1. change [(MSized r c, true); (MResize s r' c', false); (MDims s, true)] with ([(MSized r c, true); (MResize s r' c', false)] ++ [(@MDims T s, true)]).
    rewrite AP. cbn [amstep mstep]. destruct D as (so & p & k & A & _). rewrite (proj2 (get_obj_alive _ _ _) A). cbn [bind].
    unfold hdr_of. rewrite Hh. cbn [bind fst snd]. rewrite Hr, Hc. reflexivity.
  - change [(MSized r c, true); (MResize s r' c', false); (MDestroy s, true)] with ([(MSized r c, true); (MResize s r' c', false)] ++ [(@MDestroy T s, true)]).
    rewrite AP. cbn [amstep mstep]. unfold hdr_of. rewrite Hh. cbn [bind]. unfold with_storage.
    rewrite (dangling_destroy _ _ D). reflexivity.
Qed.

(** A default-constructed matrix survives, but claims to have elements. *)
Theorem C81_dense_default_resize_refuted : forall (m : msys T N) r c i j,
  in_step m -> i < r -> j < c ->
  let s := length (m_hdr m) in
  (exists m1, amrun m [(MDefault, true); (MResize s r c, false); (MDims s, true); (MDestroy s, true)]
     = Ok (m1, [AMOut MNone; AMBad; AMOut (MPair r c); AMOut MNone])) /\
  amrun m [(MDefault, true); (MResize s r c, false); (MRead s i j, true)] = UB NullDeref.
Proof.
  intros m r c i j I Hi Hj s.
  assert (B : s = length (objs (m_sys m))) by exact I.
  assert (P0 : r * c <> 0) by nia.
  set (y1 := {| blocks := blocks (m_sys m); objs := objs (m_sys m) ++ [Some {| st_data := None; st_size := 0; st_own := true |}] |}).
  set (m1 := mkMsys y1 (m_hdr m ++ [mkHdr r c (r * c) 0 0 (@None N)])).
  assert (S2 : amrun m [(MDefault, true); (MResize s r c, false)] = Ok (m1, [AMOut MNone; AMBad])).
  { cbn [AllocM_Model.amrun amstep mstep]. unfold with_storage. cbn [step bind fst snd]. unfold hdr_of. cbn [m_hdr].
    rewrite (snoc_at (m_hdr m) s _ eq_refl). cbn [bind]. unfold failing. cbn [m_sys astep]. unfold get_obj, s_default, new_obj. cbn [objs].
    rewrite (snoc_at (objs (m_sys m)) s _ B). cbn [bind st_size st_own st_data negb blocks].
    destruct (Nat.eqb_spec 0 (r * c)); [lia|]. cbn [bind]. rewrite (upd_snoc _ s _ _ eq_refl). reflexivity. }
  assert (AP : forall t, amrun m ([(MDefault, true); (MResize s r c, false)] ++ t) =
     do q <- amrun m1 t; Ok (fst q, [AMOut MNone; AMBad] ++ snd q)).
  { intros t. cbn [AllocM_Model.amrun app] in *.
    destruct (amstep _ _ _ _ m (MDefault, true)) as [[ma xa]| | | |]; cbn [bind] in *; try discriminate.
    destruct (amstep _ _ _ _ ma _) as [[mb xb]| | | |]; cbn [bind] in *; try discriminate.
    injection S2 as -> -> ->. destruct (AllocM_Model.amrun _ _ _ _ m1 t) as [[mc xc]| | | |]; reflexivity. }
  assert (G : get_obj y1 s = Ok {| st_data := None; st_size := 0; st_own := true |}).
  { unfold get_obj, y1. cbn [objs]. now rewrite (snoc_at (objs (m_sys m)) s _ B). }
  assert (H : hdr_of m1 s = Ok (mkHdr r c (r * c) 0 0 (@None N))).
  { unfold hdr_of, m1. cbn [m_hdr]. now rewrite (snoc_at (m_hdr m) s _ eq_refl). }
  split.
  - eexists. change [(MDefault, true); (MResize s r c, false); (MDims s, true); (MDestroy s, true)]
      with ([(MDefault, true); (MResize s r c, false)] ++ [(@MDims T s, true); (MDestroy s, true)]).
    rewrite AP. cbn [AllocM_Model.amrun amstep mstep]. rewrite H. change (m_sys m1) with y1. rewrite G. cbn [bind fst snd].
    rewrite H. cbn [bind]. unfold with_storage. change (m_sys m1) with y1. cbn [step]. unfold s_destroy. rewrite G. cbn [bind st_own st_data quiet fst snd].
    reflexivity.
  - change [(MDefault, true); (MResize s r c, false); (MRead s i j, true)]
      with ([(MDefault, true); (MResize s r c, false)] ++ [(@MRead T s i j, true)]).
    rewrite AP. cbn [AllocM_Model.amrun amstep mstep]. rewrite H. cbn [bind].
    assert (Q : exists p, position dbg (own_shape o (h_rows (mkHdr r c (r * c) 0 0 (@None N))) (h_cols (mkHdr r c (r * c) 0 0 (@None N)))) i j = Ok p).
    { cbn [h_rows h_cols]. unfold position, own_shape. cbn [sh_rows sh_cols].
      apply Nat.ltb_lt in Hi. apply Nat.ltb_lt in Hj. rewrite Hi, Hj. unfold cassert. destruct dbg; cbn [negb andb orb bind]; eauto. }
    destruct Q as (p & ->). cbn [bind]. unfold with_storage. change (m_sys m1) with y1. cbn [step]. unfold s_read. rewrite G. reflexivity.
Qed.
End Dense.
Print Assumptions C81_dense_constructors.
Print Assumptions C81_dense_resize_refuted.
Print Assumptions C81_dense_default_resize_refuted.
Example C81_dense_nonvacuous : in_step (msys0 (T:=nat) (N:=nat)) /\ 2 * 3 <> 3 * 3 /\ 1 < 2 /\ 2 < 3.
Proof. split; [reflexivity|]. split; [discriminate|lia]. Qed.

(** Sparse matrices. *)
Section Sparse.
Context {T : Type}.

(** Memory is as before, apart from blocks obtained and released again. *)
Definition as_before {U} (y y1 : sys U) : Prop :=
  objs y1 = objs y /\ exists dead, blocks y1 = blocks y ++ dead /\ forall k, In k dead -> b_live k = false.

Lemma undone_sized {U} (y : sys U) n : exists y1, undone y (OSized n) = Ok y1 /\ as_before y y1.
Proof.
  unfold undone. cbn [step bind fst]. unfold s_fresh, h_alloc, new_obj. cbn [bind]. unfold s_destroy, get_obj. cbn [objs].
  rewrite nth_error_snoc_last. cbn [bind st_own st_data blocks]. unfold h_free. rewrite nth_error_snoc_last. cbn [b_ext b_live bind quiet fst].
  eexists. split; [reflexivity|]. split; [reflexivity|]. cbn [blocks]. rewrite (upd_snoc _ _ _ _ eq_refl). eexists. split; [reflexivity|].
  intros k [<-|[]]. reflexivity.
Qed.
Lemma undone_copy {U} (y : sys U) s x : Inv y -> alive y s x -> st_own x = true ->
  exists y1, undone y (OCopyCtor s) = Ok y1 /\ as_before y y1.
Proof.
  intros I A Ow. unfold undone. cbn [step]. unfold s_copy_ctor. rewrite (proj2 (get_obj_alive _ _ _) A). cbn [bind].
  pose proof (inv_ok _ I _ _ A) as K. apply read_ok in K. rewrite K. cbn [bind quiet]. unfold h_alloc, new_obj. cbn [quiet bind fst].
  unfold s_destroy, get_obj. cbn [objs].
  rewrite nth_error_snoc_last. cbn [bind st_own st_data blocks]. rewrite Ow. unfold h_free. rewrite nth_error_snoc_last. cbn [b_ext b_live bind quiet fst].
  eexists. split; [reflexivity|]. split; [reflexivity|]. cbn [blocks]. rewrite (upd_snoc _ _ _ _ eq_refl). eexists. split; [reflexivity|].
  intros k [<-|[]]. reflexivity.
Qed.
Lemma as_before_refl {U} (y : sys U) : as_before y y.
Proof. split; [reflexivity|]. exists []. split; [now rewrite app_nil_r|]. intros k []. Qed.

Definition unchanged (m m1 : ssys T) : Prop :=
  as_before (sy_val m) (sy_val m1) /\ as_before (sy_key m) (sy_key m1) /\ as_before (sy_off m) (sy_off m1) /\ sy_hdr m1 = sy_hdr m.
Definition some_failure (f : flags) : Prop := fl_val f && fl_key f && fl_off f = false.

(** Whichever of the three allocations of a constructor fails, no matrix is made,
    nothing is leaked, and the other matrices are untouched. *)
Theorem C81_sparse_constructors : forall (m : ssys T) f, some_failure f ->
  (exists m1, asrun m [(SDefault, f)] = Ok (m1, [ASBad]) /\ unchanged m m1) /\
  (forall r c n, exists m1, asrun m [(SSized r c n, f)] = Ok (m1, [ASBad]) /\ unchanged m m1) /\
  (forall s h x1 x2 x3, Inv (sy_val m) -> Inv (sy_key m) -> Inv (sy_off m) ->
     nth_error (sy_hdr m) s = Some h -> alive (sy_val m) s x1 -> alive (sy_key m) s x2 -> alive (sy_off m) s x3 ->
     st_own x1 = true -> st_own x2 = true ->
     exists m1, asrun m [(SCopyCtor s, f)] = Ok (m1, [ASBad]) /\ unchanged m m1).
Proof.
  intros m f F.
  assert (G : forall ov ok oo hs, (exists y1, undone (sy_val m) ov = Ok y1 /\ as_before (sy_val m) y1) ->
     (exists y2, undone (sy_key m) ok = Ok y2 /\ as_before (sy_key m) y2) ->
     exists m1, ctor3 m f ov ok oo hs = Ok (m1, ASBad) /\ unchanged m m1).
  { intros ov ok oo hs (y1 & E1 & B1) (y2 & E2 & B2). unfold ctor3. unfold some_failure in F.
    destruct (fl_val f); cbn [negb].
    - destruct (fl_key f); cbn [negb].
      + cbn [andb] in F. rewrite F. cbn [negb]. rewrite E1, E2. cbn [bind]. eexists. split; [reflexivity|].
        split; [exact B1|]. split; [exact B2|]. split; [apply as_before_refl|reflexivity].
      + rewrite E1. cbn [bind]. eexists. split; [reflexivity|]. split; [exact B1|]. repeat (split; [apply as_before_refl|]). reflexivity.
    - eexists. split; [reflexivity|]. repeat (split; [apply as_before_refl|]). reflexivity. }
  split; [|split].
  - destruct (G (OSized 0) (OSized 0) (OSized 0) (sy_hdr m ++ [mkSHdr 0 0 0]) (undone_sized _ _) (undone_sized _ _)) as (m1 & E & U).
    exists m1. cbn [asrun asstep]. rewrite E. split; [reflexivity|exact U].
  - intros r c n. destruct (G (OSized (nnz_or_all r c n)) (OSized (nnz_or_all r c n)) (OSized (c + 1)) (sy_hdr m ++ [mkSHdr r c (r * c)]) (undone_sized _ _) (undone_sized _ _)) as (m1 & E & U).
    exists m1. cbn [asrun asstep]. rewrite E. split; [reflexivity|exact U].
  - intros s h x1 x2 x3 I1 I2 I3 H A1 A2 A3 O1 O2.
    destruct (G (OCopyCtor s) (OCopyCtor s) (OCopyCtor s) (sy_hdr m ++ [h]) (undone_copy _ _ _ I1 A1 O1) (undone_copy _ _ _ I2 A2 O2)) as (m1 & E & U).
    exists m1. cbn [asrun asstep]. unfold shdr_of. rewrite H. cbn [bind]. rewrite (proj2 (get_obj_alive _ _ _) A1). cbn [bind]. rewrite E.
    split; [reflexivity|exact U].
Qed.

Definition numbered (m : ssys T) : Prop :=
  length (objs (sy_val m)) = length (sy_hdr m) /\ length (objs (sy_key m)) = length (sy_hdr m) /\ length (objs (sy_off m)) = length (sy_hdr m).
Definition all_ok : flags := mkFlags true true true.

Definition with_new {U} (y : sys U) (n : nat) : sys U :=
  {| blocks := blocks y ++ [{| b_live := true; b_ext := false; b_cells := alloc n |}];
     objs := objs y ++ [Some {| st_data := Some (length (blocks y)); st_size := n; st_own := true |}] |}.
Lemma new_step {U} (y : sys U) n : step y (OSized n) = Ok (with_new y n, ONone).
Proof. cbn [step]. unfold s_fresh, h_alloc, new_obj, with_new, alloc. now rewrite repeat_length. Qed.
Definition with_dead {U} (y : sys U) (n : nat) : sys U :=
  {| blocks := blocks y ++ [{| b_live := false; b_ext := false; b_cells := alloc n |}];
     objs := objs y ++ [Some {| st_data := Some (length (blocks y)); st_size := n; st_own := true |}] |}.
Lemma new_resize_fails {U} (y : sys U) n n' : n <> n' ->
  astep (with_new y n) (OResize (length (objs y)) n', false) = Ok (with_dead y n, ABad).
Proof.
  intros N. cbn [astep]. unfold get_obj, with_new. cbn [objs]. rewrite nth_error_snoc_last. cbn [bind st_size st_own st_data negb blocks].
  destruct (Nat.eqb_spec n n'); [contradiction|]. unfold h_free. rewrite nth_error_snoc_last. cbn [b_ext b_live bind].
  unfold with_dead. now rewrite (upd_snoc _ _ _ _ eq_refl).
Qed.
Lemma with_dead_destroy {U} (y : sys U) n : step (with_dead y n) (ODestroy (length (objs y))) = UB DoubleFree.
Proof.
  apply dangling_destroy. unfold dangling, alive, with_dead. cbn [objs blocks]. do 3 eexists.
  split; [apply nth_error_snoc_last|]. split; [reflexivity|]. split; [reflexivity|]. split; [apply nth_error_snoc_last|]. split; reflexivity.
Qed.
(** The same call when it succeeds or has nothing to do: the object stays whole. *)
Lemma new_resize_ok {U} (y : sys U) n n' : exists y1 z, astep (with_new y n) (OResize (length (objs y)) n', true) = Ok (y1, AOut z) /\ z = ONone /\
  exists y2, step y1 (ODestroy (length (objs y))) = Ok (y2, ONone).
Proof.
  cbn [astep step]. unfold s_resize, get_obj, with_new. cbn [objs]. rewrite nth_error_snoc_last. cbn [bind st_size st_own st_data negb blocks].
  destruct (Nat.eqb_spec n n').
  - unfold fine. cbn [bind fst snd]. do 2 eexists. split; [reflexivity|]. split; [reflexivity|]. unfold s_destroy, get_obj. cbn [objs].
    rewrite nth_error_snoc_last. cbn [bind st_own st_data blocks]. unfold h_free. rewrite nth_error_snoc_last. cbn [b_ext b_live bind quiet]. eauto.
  - unfold h_free at 1. rewrite nth_error_snoc_last. cbn [b_ext b_live bind]. unfold h_alloc, fine. cbn [bind fst snd]. do 2 eexists. split; [reflexivity|]. split; [reflexivity|].
    unfold s_destroy, get_obj. cbn [objs]. rewrite (upd_snoc _ _ _ _ eq_refl), nth_error_snoc_last. cbn [bind st_own st_data blocks].
    unfold h_free. rewrite nth_error_snoc_last. cbn [b_ext b_live bind quiet]. eauto.
Qed.

(** In any state: make a matrix, resize it, fail.  If the number of elements
    changes, the values are lost or (second allocation) the keys; if only the
    number of columns changes, the offsets: the matrix cannot be destroyed. *)
Theorem C81_sparse_resize_refuted : forall (m : ssys T) r c n r' c' n',
  numbered m ->
  let s := length (sy_hdr m) in
  let prog f := [(SSized r c n, all_ok); (SResize s r' c' n', f); (SDestroy s, all_ok)] in
  (nnz_or_all r c n <> nnz_or_all r' c' n' ->
     asrun m (prog (mkFlags false true true)) = UB DoubleFree /\
     asrun m (prog (mkFlags true false true)) = UB DoubleFree) /\
  (c <> c' -> asrun m (prog (mkFlags true true false)) = UB DoubleFree).
Proof.
  intros m r c n r' c' n' (L1 & L2 & L3) s prog. unfold prog. clear prog.
  assert (M : asstep m (SSized r c n, all_ok) =
    Ok (mkSsys (with_new (sy_val m) (nnz_or_all r c n)) (with_new (sy_key m) (nnz_or_all r c n)) (with_new (sy_off m) (c + 1))
          (sy_hdr m ++ [mkSHdr r c (r * c)]), ASOut SNone)).
  { cbn [asstep]. unfold ctor3, all_ok. cbn [fl_val fl_key fl_off negb]. unfold on3. repeat (rewrite new_step; cbn [bind]). reflexivity. }
  assert (H : forall y1 y2 y3, shdr_of (mkSsys (T:=T) y1 y2 y3 (sy_hdr m ++ [mkSHdr r c (r * c)])) s = Ok (mkSHdr r c (r * c))).
  { intros y1 y2 y3. unfold shdr_of. cbn [sy_hdr]. now rewrite (snoc_at _ s _ eq_refl). }
  assert (S1 : s = length (objs (sy_val m))) by (symmetry; exact L1).
  assert (S2 : s = length (objs (sy_key m))) by (symmetry; exact L2).
  assert (S3 : s = length (objs (sy_off m))) by (symmetry; exact L3).
  split.
  - intros N. split.
    + cbn [asrun]. rewrite M. cbn [bind asstep]. rewrite H. cbn [bind]. unfold change3. cbn [sy_val sy_key sy_off sy_hdr fl_val].
      rewrite S1 at 1. rewrite (new_resize_fails _ _ _ N). cbn [bind sstep]. unfold on3. cbn [sy_val].
      rewrite S1 at 1. rewrite with_dead_destroy. reflexivity.
    + cbn [asrun]. rewrite M. cbn [bind asstep]. rewrite H. cbn [bind]. unfold change3. cbn [sy_val sy_key sy_off sy_hdr fl_val fl_key].
      destruct (new_resize_ok (sy_val m) (nnz_or_all r c n) (nnz_or_all r' c' n')) as (y1 & z & E & -> & y1' & D1).
      rewrite <- S1 in E, D1. rewrite E. cbn [bind].
      rewrite S2 at 1. rewrite (new_resize_fails _ _ _ N). cbn [bind sstep]. unfold on3. cbn [sy_val sy_key]. rewrite D1. cbn [bind].
      rewrite S2 at 1. rewrite with_dead_destroy. reflexivity.
  - intros N. cbn [asrun]. rewrite M. cbn [bind asstep]. rewrite H. cbn [bind]. unfold change3. cbn [sy_val sy_key sy_off sy_hdr fl_val fl_key fl_off].
    destruct (new_resize_ok (sy_val m) (nnz_or_all r c n) (nnz_or_all r' c' n')) as (y1 & z & E & -> & y1' & D1).
    rewrite <- S1 in E, D1. rewrite E. cbn [bind].
    destruct (new_resize_ok (sy_key m) (nnz_or_all r c n) (nnz_or_all r' c' n')) as (y2 & z & E2 & -> & y2' & D2).
    rewrite <- S2 in E2, D2. rewrite E2. cbn [bind].
    assert (N' : c + 1 <> c' + 1) by lia.
    rewrite S3 at 1. rewrite (new_resize_fails _ _ _ N'). cbn [bind sstep]. unfold on3. cbn [sy_val sy_key sy_off]. rewrite D1. cbn [bind]. rewrite D2. cbn [bind].
    rewrite S3 at 1. rewrite with_dead_destroy. reflexivity.
Qed.
End Sparse.
Print Assumptions C81_sparse_constructors.
Print Assumptions C81_sparse_resize_refuted.
Example C81_sparse_nonvacuous : numbered (ssys0 (T:=nat)) /\ some_failure (mkFlags true false true) /\
  nnz_or_all 2 3 0 <> nnz_or_all 3 3 2.
Proof. split; [repeat split; reflexivity|]. split; [reflexivity|discriminate]. Qed.

(** A copy that fails at its last allocation; afterwards everything is released. *)
Example C81_sparse_copy_nonvacuous :
  exists m : ssys nat, asrun ssys0 [(SSized 2 3 0, all_ok); (SPutVal 0 1 7, all_ok); (SCopyCtor 0, mkFlags true true false); (SDestroy 0, all_ok)]
    = Ok (m, [ASOut SNone; ASOut SNone; ASBad; ASOut SNone]) /\
    forallb (fun k => negb (b_live k)) (blocks (sy_val m)) = true /\ forallb (fun k => negb (b_live k)) (blocks (sy_key m)) = true /\
    forallb (fun k => negb (b_live k)) (blocks (sy_off m)) = true.
Proof. eexists. split; [vm_compute; reflexivity|]. vm_compute. auto. Qed.
