(** C81, assignments and blocked resizes of matrices that hold memory: what a
    failed one leaves, in any state that satisfies the ownership invariant of
    Storage_Proofs.v (every reachable one). *)
From Verif Require Import Base BaseLemmas Storage_Model Storage_Spec Storage_Proofs Alloc_Model AllocM_Model Alloc_Proofs Obj_Model SObj_Model.

(** Storage [s] is an owner of memory. *)
Definition holds {U} (y : sys U) (s : nat) : Prop :=
  exists k p, alive y s k /\ st_own k = true /\ st_data k = Some p.

Lemma assign_fails {U} (y : sys U) d s : InvV y -> holds y d -> holds y s -> d <> s ->
  exists y1, astep y (OCopyAssign d s, false) = Ok (y1, ABad) /\ dangling y1 d /\ objs y1 = objs y.
Proof.
  intros I (k & p & A & Ow & D) (k2 & p2 & A2 & Ow2 & D2) N.
  destruct (freed_dangling y d k p I A Ow D) as (h1 & F & Dg & _).
  unfold astep. rewrite (proj2 (get_obj_alive _ _ _) A), (proj2 (get_obj_alive _ _ _) A2). cbn [bind].
  destruct (Nat.eqb_spec d s); [contradiction|]. rewrite Ow, D, F. cbn [bind]. rewrite Ow2. eexists. split; [reflexivity|]. split; [exact Dg|reflexivity].
Qed.
Lemma resize_fails {U} (y : sys U) s k p n : InvV y -> alive y s k -> st_own k = true -> st_data k = Some p -> st_size k <> n ->
  exists y1, astep y (OResize s n, false) = Ok (y1, ABad) /\ dangling y1 s /\ objs y1 = objs y.
Proof.
  intros I A Ow D N. destruct (freed_dangling y s k p I A Ow D) as (h1 & F & Dg & _).
  unfold astep. rewrite (proj2 (get_obj_alive _ _ _) A). cbn [bind].
  destruct (Nat.eqb_spec (st_size k) n); [contradiction|]. rewrite Ow, D, F. cbn [bind negb]. eexists. split; [reflexivity|]. split; [exact Dg|reflexivity].
Qed.
Lemma assign_works {U} (y : sys U) d s k : InvV y -> holds y d -> holds y s -> d <> s -> alive y s k ->
  exists y1 k1, astep y (OCopyAssign d s, true) = Ok (y1, AOut ONone) /\ InvV y1 /\ alive y1 d k1.
Proof.
  intros I (kd & pd & A & Ow & D) (k2 & p2 & A2 & Ow2 & D2) N A3.
  assert (V : exists v1, vstep (view y) (OCopyAssign d s) = Some (v1, ONone) /\ exists x, vget v1 d = Some x).
  { cbn [vstep]. assert (G : forall q z, alive y q z -> exists x, vget (view y) q = Some x).
    { intros q z Az. unfold vget, view. rewrite nth_error_map_eq. unfold alive in Az. rewrite Az. simpl. eauto. }
    destruct (G _ _ A) as (x1 & ->). destruct (G _ _ A2) as (x2 & ->). eexists. split; [reflexivity|].
    exists x2. unfold vget. rewrite nth_error_upd_eq; [reflexivity|].
    unfold view. rewrite map_length. unfold alive in A. apply nth_error_Some. congruence. }
  destruct V as (v1 & V & x & G). destruct (vstep_ok y _ _ _ I V) as (y1 & E & I1 & W). subst v1.
  apply vget_view in G. destruct G as (k1 & A1 & _). exists y1, k1. split; [|split; assumption].
  unfold astep. rewrite E. reflexivity.
Qed.
Lemma destroys {U} (y : sys U) d k : InvV y -> alive y d k -> exists y1 x, step y (ODestroy d) = Ok (y1, x) /\ (x = ONone).
Proof.
  intros I A. assert (V : exists v1, vstep (view y) (ODestroy d) = Some (v1, ONone)).
  { cbn [vstep]. unfold vget, view. rewrite nth_error_map_eq. unfold alive in A. rewrite A. simpl. eauto. }
  destruct V as (v1 & V). destruct (vstep_ok y _ _ _ I V) as (y1 & E & _). eauto.
Qed.
Lemma alive_lt_objs {U} (y : sys U) s k : alive y s k -> s < length (objs y).
Proof. unfold alive. intros H. apply nth_error_Some. congruence. Qed.

Section Dense.
Context {T N : Type} (o : orient) (dbg : bool) (norm_of : nat -> nat -> buf T -> res N) (eqv : T -> T -> bool).
Notation amrun := (amrun o dbg norm_of eqv).

(** A failed assignment [d = s]: [d] has the dimensions of [s], its old memory is
    released and still owned.  All other matrices report their dimensions as
    before. *)
Theorem C81_dense_assignment_refuted : forall (m : msys T N) d s hd hs,
  InvV (m_sys m) -> holds (m_sys m) d -> holds (m_sys m) s -> d <> s ->
  nth_error (m_hdr m) d = Some hd -> nth_error (m_hdr m) s = Some hs ->
  exists m1, amrun m [(MCopyAssign d s, false)] = Ok (m1, [AMBad]) /\
    amrun m1 [(MDims d, true)] = Ok (m1, [AMOut (MPair (h_rows hs) (h_cols hs))]) /\
    amrun m1 [(MDestroy d, true)] = UB DoubleFree /\
    (forall u, u <> d -> nth_error (m_hdr m1) u = nth_error (m_hdr m) u /\ nth_error (objs (m_sys m1)) u = nth_error (objs (m_sys m)) u).
Proof.
  intros m d s hd hs I Hd Hs ND Nd Ns. destruct (assign_fails _ _ _ I Hd Hs ND) as (y1 & E & D & Ob).
  cbn [AllocM_Model.amrun amstep]. unfold hdr_of. rewrite Nd, Ns. cbn [bind]. unfold failing. rewrite E. cbn [bind].
  eexists. split; [reflexivity|].
  assert (Hdr : nth_error (upd (m_hdr m) d (mkHdr (h_rows hs) (h_cols hs) (h_full hs) (h_ubr hs) (h_ubc hs) (h_norm hd))) d
    = Some (mkHdr (h_rows hs) (h_cols hs) (h_full hs) (h_ubr hs) (h_ubc hs) (h_norm hd))).
  { apply nth_error_upd_eq. apply nth_error_Some. congruence. }
  cbn [mstep m_sys m_hdr]. split; [|split].
  - destruct D as (k & p & b & A & _). rewrite (proj2 (get_obj_alive _ _ _) A). cbn [bind]. unfold hdr_of. cbn [m_hdr]. rewrite Hdr. reflexivity.
  - unfold hdr_of. cbn [m_hdr]. rewrite Hdr. cbn [bind]. unfold with_storage. cbn [m_sys]. rewrite (dangling_destroy _ _ D). reflexivity.
  - intros u Nu. cbn [m_hdr m_sys]. split; [apply nth_error_upd_ne; congruence|now rewrite Ob].
Qed.

(** A failed blocked resize. *)
Theorem C81_dense_blocked_resize_refuted : forall (m : msys T N) s k p h r c ur uc,
  InvV (m_sys m) -> alive (m_sys m) s k -> st_own k = true -> st_data k = Some p -> st_size k <> r * c ->
  nth_error (m_hdr m) s = Some h ->
  exists m1, amrun m [(MResizeB s r c ur uc, false)] = Ok (m1, [AMBad]) /\
    amrun m1 [(MDims s, true)] = Ok (m1, [AMOut (MPair r c)]) /\
    amrun m1 [(MDestroy s, true)] = UB DoubleFree /\
    (forall u, u <> s -> nth_error (m_hdr m1) u = nth_error (m_hdr m) u /\ nth_error (objs (m_sys m1)) u = nth_error (objs (m_sys m)) u).
Proof.
  intros m s k p h r c ur uc I A Ow Dt Sz Nh. destruct (resize_fails _ _ _ _ _ I A Ow Dt Sz) as (y1 & E & D & Ob).
  cbn [AllocM_Model.amrun amstep]. unfold hdr_of. rewrite Nh. cbn [bind]. unfold failing. rewrite E. cbn [bind].
  eexists. split; [reflexivity|].
  assert (Hdr : nth_error (upd (m_hdr m) s (mkHdr r c (h_full h) ur uc (h_norm h))) s = Some (mkHdr r c (h_full h) ur uc (h_norm h))).
  { apply nth_error_upd_eq. apply nth_error_Some. congruence. }
  cbn [mstep m_sys m_hdr]. split; [|split].
  - destruct D as (k' & p' & b & A' & _). rewrite (proj2 (get_obj_alive _ _ _) A'). cbn [bind]. unfold hdr_of. cbn [m_hdr]. rewrite Hdr. reflexivity.
  - unfold hdr_of. cbn [m_hdr]. rewrite Hdr. cbn [bind]. unfold with_storage. cbn [m_sys]. rewrite (dangling_destroy _ _ D). reflexivity.
  - intros u Nu. cbn [m_hdr m_sys]. split; [apply nth_error_upd_ne; congruence|now rewrite Ob].
Qed.
End Dense.
Print Assumptions C81_dense_assignment_refuted.
Print Assumptions C81_dense_blocked_resize_refuted.

Section Sparse.
Context {T : Type}.

(** Every storage of the matrix owns memory. *)
Definition holds3 (m : ssys T) (s : nat) : Prop := holds (sy_val m) s /\ holds (sy_key m) s /\ holds (sy_off m) s.

(** Whichever of the three allocations of [d = s] fails: [d] reports the
    dimensions of [s] and cannot be destroyed. *)
Theorem C81_sparse_assignment_refuted : forall (m : ssys T) d s hs f,
  InvV (sy_val m) -> InvV (sy_key m) -> InvV (sy_off m) -> holds3 m d -> holds3 m s -> d <> s ->
  d < length (sy_hdr m) -> nth_error (sy_hdr m) s = Some hs ->
  fl_val f && fl_key f && fl_off f = false ->
  exists m1, asrun m [(SCopyAssign d s, f)] = Ok (m1, [ASBad]) /\
    asrun m1 [(SDims d, f)] = Ok (m1, [ASOut (SPair (sh_r hs) (sh_c hs))]) /\
    asrun m1 [(SDestroy d, f)] = UB DoubleFree.
Proof.
  intros m d s hs f Iv Ik Io (Dv & Dk & Do) (Sv & Sk & So) ND Ld Ns Ff.
  destruct (nth_error (sy_hdr m) d) as [hd|] eqn:Nd; [|apply nth_error_None in Nd; lia].
  assert (Hdr : nth_error (upd (sy_hdr m) d hs) d = Some hs) by (apply nth_error_upd_eq; exact Ld).
  cbn [asrun asstep]. unfold shdr_of. rewrite Nd, Ns. cbn [bind]. unfold change3.
  destruct (fl_val f) eqn:Fv.
  - pose proof Sv as (kv & pv & Akv & _). destruct (assign_works _ _ _ _ Iv Dv Sv ND Akv) as (y1 & k1 & E1 & I1 & A1). rewrite E1. cbn [bind].
    destruct (destroys _ _ _ I1 A1) as (w1 & x1 & W1 & ->).
    destruct (fl_key f) eqn:Fk.
    + pose proof Sk as (kk & pk & Akk & _). destruct (assign_works _ _ _ _ Ik Dk Sk ND Akk) as (y2 & k2 & E2 & I2 & A2). rewrite E2. cbn [bind].
      destruct (destroys _ _ _ I2 A2) as (w2 & x2 & W2 & ->).
      destruct (fl_off f) eqn:Fo; [discriminate|].
      destruct (assign_fails _ _ _ Io Do So ND) as (y3 & E3 & D3 & _). rewrite E3. cbn [bind].
      eexists. split; [reflexivity|]. cbn [sstep sy_val sy_hdr]. split.
      * rewrite (proj2 (get_obj_alive _ _ _) A1). cbn [bind]. unfold shdr_of. cbn [sy_hdr]. rewrite Hdr. reflexivity.
      * unfold on3. cbn [sy_val sy_key sy_off]. rewrite W1. cbn [bind]. rewrite W2. cbn [bind]. rewrite (dangling_destroy _ _ D3). reflexivity.
    + destruct (assign_fails _ _ _ Ik Dk Sk ND) as (y2 & E2 & D2 & _). rewrite E2. cbn [bind].
      eexists. split; [reflexivity|]. cbn [sstep sy_val sy_hdr]. split.
      * rewrite (proj2 (get_obj_alive _ _ _) A1). cbn [bind]. unfold shdr_of. cbn [sy_hdr]. rewrite Hdr. reflexivity.
      * unfold on3. cbn [sy_val sy_key sy_off]. rewrite W1. cbn [bind]. rewrite (dangling_destroy _ _ D2). reflexivity.
  - destruct (assign_fails _ _ _ Iv Dv Sv ND) as (y1 & E1 & D1 & _). rewrite E1. cbn [bind].
    eexists. split; [reflexivity|]. cbn [sstep sy_val sy_hdr]. split.
    + pose proof D1 as (k' & p' & b & A' & _). rewrite (proj2 (get_obj_alive _ _ _) A'). cbn [bind]. unfold shdr_of. cbn [sy_hdr]. rewrite Hdr. reflexivity.
    + unfold on3. cbn [sy_val sy_key sy_off]. rewrite (dangling_destroy _ _ D1). reflexivity.
Qed.

(** A failed resize whose value storage would have changed size: the new
    dimensions are reported. *)
Theorem C81_sparse_resize_dims_refuted : forall (m : ssys T) s k p r c n f,
  InvV (sy_val m) -> alive (sy_val m) s k -> st_own k = true -> st_data k = Some p -> st_size k <> nnz_or_all r c n ->
  s < length (sy_hdr m) -> fl_val f = false ->
  exists m1, asrun m [(SResize s r c n, f)] = Ok (m1, [ASBad]) /\
    asrun m1 [(SDims s, f)] = Ok (m1, [ASOut (SPair r c)]) /\
    asrun m1 [(SDestroy s, f)] = UB DoubleFree.
Proof.
  intros m s k p r c n f I A Ow D Sz L F. destruct (nth_error (sy_hdr m) s) as [h|] eqn:Ns; [|apply nth_error_None in Ns; lia].
  assert (Hdr : nth_error (upd (sy_hdr m) s (mkSHdr r c (r * c))) s = Some (mkSHdr r c (r * c))) by (apply nth_error_upd_eq; exact L).
  cbn [asrun asstep]. unfold shdr_of. rewrite Ns. cbn [bind]. unfold change3. rewrite F.
  destruct (resize_fails _ _ _ _ _ I A Ow D Sz) as (y1 & E & Dg & _). rewrite E. cbn [bind].
  eexists. split; [reflexivity|]. cbn [sstep sy_val sy_hdr]. split.
  - pose proof Dg as (k' & p' & b & A' & _). rewrite (proj2 (get_obj_alive _ _ _) A'). cbn [bind]. unfold shdr_of. cbn [sy_hdr]. rewrite Hdr. reflexivity.
  - unfold on3. cbn [sy_val sy_key sy_off]. rewrite (dangling_destroy _ _ Dg). reflexivity.
Qed.
End Sparse.
Print Assumptions C81_sparse_assignment_refuted.
Print Assumptions C81_sparse_resize_dims_refuted.

(** States as in the hypotheses are reached by making two matrices. *)
Example C81_assignment_nonvacuous :
  (exists m : msys nat nat, amrun RowMajor true (fun _ _ _ => Ok 0) Nat.eqb msys0 [(MSized 2 3, true); (MSized 4 5, true)]
     = Ok (m, [AMOut MNone; AMOut MNone]) /\ InvV (m_sys m) /\ holds (m_sys m) 0 /\ holds (m_sys m) 1 /\ length (m_hdr m) = 2) /\
  (exists m : ssys nat, asrun ssys0 [(SSized 2 3 0, mkFlags true true true); (SSized 4 5 6, mkFlags true true true)]
     = Ok (m, [ASOut SNone; ASOut SNone]) /\ InvV (sy_val m) /\ InvV (sy_key m) /\ InvV (sy_off m) /\ holds3 m 0 /\ holds3 m 1 /\ length (sy_hdr m) = 2).
Proof.
  assert (H : forall U (a b : nat) (y : sys U) xs, run sys0 [OSized a; OSized b] = Ok (y, xs) -> InvV y).
  { intros U a b y xs E. destruct (vstep_ok (T:=U) sys0 (OSized a) _ _ (InvV0 (T:=U)) eq_refl) as (y1 & E1 & I1 & _).
    destruct (vstep_ok y1 (OSized b) _ _ I1 eq_refl) as (y2 & E2 & I2 & _). cbn [run] in E. rewrite E1 in E. cbn [bind] in E. rewrite E2 in E. cbn [bind] in E.
    injection E as <- _. exact I2. }
  split.
  - eexists. split; [reflexivity|]. split; [eapply (H nat 6 20); reflexivity|]. cbn.
    split; [do 2 eexists; split; [reflexivity|split; reflexivity]|]. split; [do 2 eexists; split; [reflexivity|split; reflexivity]|reflexivity].
  - eexists. split; [reflexivity|]. split; [eapply (H nat 6 6); reflexivity|]. split; [eapply (H nat 6 6); reflexivity|].
    split; [eapply (H nat 4 6); reflexivity|].
    split; [|split]; [| |reflexivity]; (split; [|split]); (do 2 eexists; split; [reflexivity|split; reflexivity]).
Qed.
