(** C51, C52: comparing, moving and swapping matrices. *)
From Coq Require Import ZArith.
From Verif Require Import Base BaseLemmas Dense_Model Dense_Spec Dense_Props Sparse_Model Sparse_Spec Sparse_Props Norm_Spec
  Storage_Spec Storage_Proofs Obj_Model Obj_Spec Obj_Proofs Eq_Model Eq_Spec Eq_Proofs Tools_Props.

(** * C51: approximate comparison *)

(** Comparing two dense matrices of the same orientation always succeeds, and
    says yes exactly if the dimensions agree and all elements are alike. *)
Theorem C51_dense_equal :
  forall (T U : Type) (eqv : T -> U -> bool) (a : dense T) (b : dense U) r c f r' c' g,
    is_mat a r c f -> is_mat b r' c' g -> d_orient a = d_orient b ->
    exists e, d_equal eqv a b = Ok e /\
      (e = true <-> r = r' /\ c = c' /\ forall i j, i < r -> j < c -> eqv (f i j) (g i j) = true).
Proof. intros T U. exact (@d_equal_spec T U). Qed.
Print Assumptions C51_dense_equal.
Example C51_nonvacuous : d_equal Z.eqb demoC demoC = Ok true /\ is_mat demoC 2 3 demoC_f.
Proof. split; [vm_compute; reflexivity | exact demoC_mat]. Qed.

(** The comparison of elements, on IEEE numbers: a value is within the accuracy
    of itself exactly if it is neither infinite nor NaN, and the comparison is
    symmetric, also between double and float. *)
Theorem C51_elements :
  (forall x, within_dd x x = number x) /\ (forall x, within_ff x x = number x) /\
  (forall x y, within_dd x y = within_dd y x) /\ (forall x y, within_ff x y = within_ff y x) /\
  (forall x y, within_df x y = within_fd y x).
Proof.
  split; [exact within_dd_refl|]. split; [exact within_ff_refl|]. split; [exact within_dd_sym|].
  split; [exact within_ff_sym|exact within_df_fd].
Qed.
Print Assumptions C51_elements.

(** Consequence: equal() is reflexive on matrices of finite doubles, and
    symmetric. *)
Theorem C51_reflexive :
  forall (a : dense spec_float) r c f, is_mat a r c f ->
    (forall i j, i < r -> j < c -> number (f i j) = true) -> d_equal within_dd a a = Ok true.
Proof.
  intros a r c f Ha Hn. destruct (d_equal_spec within_dd a a r c f r c f Ha Ha eq_refl) as (e & E & He).
  rewrite E. f_equal. apply He. split; [auto|]. split; auto. intros i j Hi Hj. rewrite within_dd_refl. auto.
Qed.
Theorem C51_symmetric :
  forall (a b : dense spec_float) r c f r' c' g, is_mat a r c f -> is_mat b r' c' g -> d_orient a = d_orient b ->
    d_equal within_dd a b = d_equal within_dd b a.
Proof.
  intros a b r c f r' c' g Ha Hb Ho.
  destruct (d_equal_spec within_dd a b r c f r' c' g Ha Hb Ho) as (e & E & He).
  destruct (d_equal_spec within_dd b a r' c' g r c f Hb Ha (eq_sym Ho)) as (e' & E' & He').
  rewrite E, E'. f_equal. apply eq_true_iff_eq. rewrite He, He'.
  split; intros (-> & -> & H); (split; [auto|]; split; [auto|]); intros i j Hi Hj; rewrite within_dd_sym; auto.
Qed.
Print Assumptions C51_reflexive. Print Assumptions C51_symmetric.
(** 0.5 and 0.5 + 2^-52 are alike; 0.5 and 0.75 are not. *)
Example C51_elements_nonvacuous :
  within_dd (S754_finite false 4503599627370496 (-53)) (S754_finite false 4503599627370498 (-53)) = true /\
  within_dd (S754_finite false 4503599627370496 (-53)) (S754_finite false 6755399441055744 (-53)) = false.
Proof. split; vm_compute; reflexivity. Qed.

(** A matrix with a NaN or infinite element is not equal to itself. *)
Theorem C51_nan_refuted :
  forall (a : dense spec_float) r c f i j, is_mat a r c f -> i < r -> j < c -> number (f i j) = false ->
    d_equal within_dd a a = Ok false.
Proof.
  intros a r c f i j Ha Hi Hj Hn. destruct (d_equal_spec within_dd a a r c f r c f Ha Ha eq_refl) as (e & E & He).
  rewrite E. f_equal. destruct e; auto. destruct He as [He _]. destruct (He eq_refl) as (_ & _ & H).
  specialize (H i j Hi Hj). rewrite within_dd_refl in H. congruence.
Qed.
Print Assumptions C51_nan_refuted.
(** The comparison is not transitive: 0, 0.8e-12, 1.6e-12. *)
Theorem C51_transitive_refuted :
  exists x y z, number x = true /\ number y = true /\ number z = true /\
    within_dd x y = true /\ within_dd y z = true /\ within_dd x z = false.
Proof.
  exists (S754_zero false), (S754_finite false 7922816251426434 (-93)), (S754_finite false 7922816251426434 (-92)).
  repeat split; vm_compute; reflexivity.
Qed.
(** Matrices of different orientation: the same array is reported different,
    different arrays are reported equal. *)
Theorem C51_orientation_refuted :
  d_equal Z.eqb demoC demoC_row = Ok false /\
  (exists f, is_mat demoC 2 3 f /\ is_mat demoC_row 2 3 f) /\
  (exists a b f g, is_mat a 2 2 f /\ is_mat b 2 2 g /\ f 0 1 <> g 0 1 /\ d_equal Nat.eqb a b = Ok true).
Proof.
  split; [vm_compute; reflexivity|]. split.
  - exists demoC_f. split; [exact demoC_mat|].
    split; [split; [reflexivity|split; reflexivity]|]. split; [reflexivity|]. split; [reflexivity|].
    intros [|[|i]] [|[|[|j]]] Hi Hj; try lia; vm_compute; reflexivity.
  - exists (mkDense (own_shape ColMajor 2 2) 4 [Some 1; Some 2; Some 3; Some 4] true),
           (mkDense (own_shape RowMajor 2 2) 4 [Some 1; Some 2; Some 3; Some 4] true),
           (fun i j => 1 + i + 2 * j), (fun i j => 1 + 2 * i + j).
    split.
    { split; [split; [reflexivity|split; reflexivity]|]. split; [reflexivity|]. split; [reflexivity|].
      intros [|[|i]] [|[|j]] Hi Hj; try lia; vm_compute; reflexivity. }
    split.
    { split; [split; [reflexivity|split; reflexivity]|]. split; [reflexivity|]. split; [reflexivity|].
      intros [|[|i]] [|[|j]] Hi Hj; try lia; vm_compute; reflexivity. }
    split; [simpl; lia|]. vm_compute. reflexivity.
Qed.
Print Assumptions C51_orientation_refuted.

(** Sparse matrices of the same orientation and dimensions without unused
    positions: equal exactly if the same elements are stored, with like values. *)
Theorem C51_sparse_equal :
  forall (T U : Type) (eqv : T -> U -> bool) (a : sparse T) (b : sparse U) r c f g,
    sp_mat a r c f -> sp_mat b r c g -> s_o a = s_o b -> compact a -> compact b ->
    exists e, sp_equal eqv a b = Ok e /\ (e = true <-> forall i j, i < r -> j < c -> both eqv (f i j) (g i j)).
Proof. intros T U. exact (@sp_equal_spec T U). Qed.
Print Assumptions C51_sparse_equal.
Example C51_sparse_nonvacuous : sp_equal Z.eqb demoS demoS = Ok true /\ compact demoS.
Proof. split; vm_compute; reflexivity. Qed.
(** Sparse comparison ignores the dimensions. *)
Theorem C51_sparse_dimensions_refuted :
  exists (a b : sparse nat) f g, sp_mat a 2 1 f /\ sp_mat b 7 1 g /\ sp_equal Nat.eqb a b = Ok true.
Proof.
  exists (mkSparse ColMajor 2 1 2 [Some 5] [Some 1] [Some 0; Some 1]),
         (mkSparse ColMajor 7 1 7 [Some 5] [Some 1] [Some 0; Some 1]),
         (fun i j => if i =? 1 then Some 5 else None), (fun i j => if i =? 1 then Some 5 else None).
  assert (G : forall r, 2 <= r -> sp_mat (mkSparse ColMajor r 1 r [Some 5] [Some 1] [Some 0; Some 1]) r 1
               (fun i j => if i =? 1 then Some 5 else None)).
  { intros r Hr. apply Sparse_Proofs.sp_mat_lines. repeat split; simpl; try lia.
    exists [[(1, 5)]]. split; [|split; [reflexivity|split]].
    - split; [reflexivity|]. exists [], []. repeat split.
    - constructor; [|constructor]. split; simpl; repeat constructor. unfold s_major. simpl. lia.
    - intros i j Hi Hj. simpl in Hi, Hj. assert (j = 0) by lia. subst. unfold line_of, key_of. simpl.
      rewrite Sparse_Proofs.lk_cons. destruct i as [|[|i]]; reflexivity. }
  split; [apply G; lia|]. split; [apply G; lia|]. vm_compute. reflexivity.
Qed.
Print Assumptions C51_sparse_dimensions_refuted.

(** Two zero matrices are equal exactly if their dimensions agree. *)
Theorem C51_zero_equal : forall r c r' c', z_equal r c r' c' = true <-> r = r' /\ c = c'.
Proof. intros. unfold z_equal. now rewrite andb_true_iff, !Nat.eqb_eq. Qed.

(** * Programs over matrix objects *)
Section Programs.
Context {T N : Type} (o : orient) (dbg : bool) (norm_of : nat -> nat -> buf T -> res N) (eqv : T -> T -> bool).
Notation vrun := (mvrun o norm_of eqv []).
Notation vstep := (mvstep o norm_of eqv).
Notation run := (mrun o dbg norm_of eqv msys0).

(** What a caller may ask about one matrix. *)
Inductive query := QDims | QElement (i j : nat) | QNorm | QSize | QUnblocked.
Definition ask (q : query) (s : nat) : mop T :=
  match q with QDims => MDims s | QElement i j => MRead s i j | QNorm => MNorm s | QSize => MSize s | QUnblocked => MUb s end.

Lemma mget_new (v : @mvals T) x : mget (v ++ [Some x]) (length v) = Some x.
Proof. unfold mget. rewrite nth_error_app2, Nat.sub_diag by lia. reflexivity. Qed.
Lemma mget_put (v : @mvals T) s x : s < length v -> mget (upd v s (Some x)) s = Some x.
Proof. intros. unfold mget. rewrite nth_error_upd_eq by auto. reflexivity. Qed.
Lemma mget_other (v : @mvals T) s c t : s <> t -> mget (upd v s c) t = mget v t.
Proof. intros. unfold mget. rewrite nth_error_upd_ne by auto. reflexivity. Qed.

Lemma obs ops v zs more v' zs' : vrun ops = Some (v, zs) -> mvrun o norm_of eqv v more = Some (v', zs') ->
  exists m, run (ops ++ more) = Ok (m, zs ++ zs').
Proof.
  intros H1 H2. destruct (run_ok o dbg norm_of eqv msys0 [] (ops ++ more) v' (zs ++ zs')) as (m & E & _).
  - apply R0.
  - rewrite mvrun_app, H1, H2. reflexivity.
  - eauto.
Qed.
Lemma one v x v' z : vstep v x = Some (v', z) -> mvrun o norm_of eqv v [x] = Some (v', [z]).
Proof. intros H. simpl. now rewrite H. Qed.

(** C52.  Any program over matrices of one type that is legal at the level of
    values runs without undefined behaviour and every call reports what the
    value-level specification says; if it does not copy a moved-from matrix and
    all matrices are destroyed, no memory is left. *)
Theorem C52_programs :
  forall ops v zs, vrun ops = Some (v, zs) ->
    exists m, run ops = Ok (m, zs) /\
      (mclean o norm_of eqv [] ops = true -> (forall x, In x v -> x = None) -> all_freed (m_sys m)).
Proof.
  intros ops v zs H. destruct (run_ok o dbg norm_of eqv msys0 [] ops v zs (R0 norm_of) H) as (m & E & HR).
  exists m. split; auto. intros HC HA. apply noleak_all_freed.
  - exact (run_noleak o dbg norm_of eqv msys0 [] ops v zs m (R0 norm_of) H HC NoLeak0 E).
  - destruct HR as (_ & Hv & _). intros y Hy.
    assert (Hin : In (option_map (fun o => {| v_vals := seen (blocks (m_sys m)) o; v_resizable := st_own o |}) y) (view (m_sys m)))
      by (unfold view; apply (in_map (option_map (fun o => {| v_vals := seen (blocks (m_sys m)) o; v_resizable := st_own o |}))); exact Hy).
    rewrite Hv in Hin. apply in_map_iff in Hin as (q & Eq & Hq). rewrite (HA q Hq) in Eq. destruct y; auto; discriminate.
Qed.

(** Move construction: every answer about dimensions, elements, norm and size
    that the source would have given is given by the new matrix. *)
Theorem C52_move_construct :
  forall ops v zs s q v' z, vrun ops = Some (v, zs) -> q <> QUnblocked ->
    vstep v (ask q s) = Some (v', z) ->
    (exists m, run (ops ++ [ask q s]) = Ok (m, zs ++ [z])) /\
    (exists m, run (ops ++ [MMoveCtor s; ask q (length v)]) = Ok (m, zs ++ [MNone; z])).
Proof.
  intros ops v zs s q v' z H HQ HS. split.
  { eapply obs; eauto. eapply one; eauto. }
  assert (exists v2, mvrun o norm_of eqv v [MMoveCtor s; ask q (length v)] = Some (v2, [MNone; z])) as (v2 & E).
  { cbn [mvrun mvstep].
    assert (exists x, mget v s = Some x) as (x & Ex).
    { destruct q; cbn [ask mvstep] in HS; destruct (mget v s); eauto; discriminate. }
    rewrite Ex. set (new := mkVal _ _ _ None _ _). set (old := mkVal _ _ moved_from _ _ _).
    assert (Hs : s < length v) by (eapply mget_lt; eauto).
    assert (G : mget (upd (v ++ [Some new]) s (Some old)) (length v) = Some new)
      by (rewrite mget_other by lia; apply mget_new).
    destruct q; cbn [ask mvstep] in *; rewrite ?G, ?Ex in *; simpl.
    - inversion HS; subst. eauto.
    - destruct (_ && _); [|discriminate]. destruct (nth_error _ _); [|discriminate]. inversion HS; subst. eauto.
    - destruct (x_norm x); try discriminate; destruct (norm_of _ _ _); try discriminate; inversion HS; subst; eauto.
    - destruct (x_size x); [|discriminate]. inversion HS; subst. eauto.
    - congruence. }
  eapply obs; eauto.
Qed.

(** Move assignment (target and source different): the same for dimensions,
    elements, size and the unblocked dimensions; and for the norm if it has never
    been asked of the target. *)
Theorem C52_move_assign :
  forall ops v zs d s q x v' z, vrun ops = Some (v, zs) -> d <> s -> mget v d = Some x ->
    (q = QNorm -> x_norm x = Unasked) ->
    vstep v (ask q s) = Some (v', z) ->
    exists m, run (ops ++ [MMoveAssign d s; ask q d]) = Ok (m, zs ++ [MNone; z]).
Proof.
  intros ops v zs d s q x v' z H Hds Hd HQ HS.
  assert (exists v2, mvrun o norm_of eqv v [MMoveAssign d s; ask q d] = Some (v2, [MNone; z])) as (v2 & E).
  { cbn [mvrun mvstep]. rewrite Hd.
    assert (exists y, mget v s = Some y) as (y & Ey).
    { destruct q; cbn [ask mvstep] in HS; destruct (mget v s); eauto; discriminate. }
    rewrite Ey. set (new := mkVal _ _ (x_st y) _ _ _). set (old := mkVal _ _ moved_from _ _ _).
    assert (G : mget (upd (upd v d (Some new)) s (Some old)) d = Some new)
      by (rewrite mget_other by lia; apply mget_put; eapply mget_lt; eauto).
    destruct q; cbn [ask mvstep] in *; rewrite ?G, ?Ey in *; simpl.
    - inversion HS; subst. eauto.
    - destruct (_ && _); [|discriminate]. destruct (nth_error _ _); [|discriminate]. inversion HS; subst. eauto.
    - rewrite HQ by auto. simpl.
      destruct (x_norm y); try discriminate; destruct (norm_of _ _ _); try discriminate; inversion HS; subst; eauto.
    - destruct (x_size y); [|discriminate]. inversion HS; subst. eauto.
    - destruct (x_ub y) as [[? ?]|]; [|discriminate]. inversion HS; subst. eauto. }
  eapply obs; eauto.
Qed.

(** Swap: each matrix now gives the answers about dimensions and elements that
    the other would have given. *)
Theorem C52_swap :
  forall ops v zs a b q v' z, vrun ops = Some (v, zs) -> a <> b ->
    (q = QDims \/ exists i j, q = QElement i j) ->
    (exists x, mget v a = Some x) ->
    vstep v (ask q b) = Some (v', z) ->
    (exists m, run (ops ++ [MSwap a b; ask q a]) = Ok (m, zs ++ [MNone; z])) /\
    (exists m, run (ops ++ [MSwap b a; ask q a]) = Ok (m, zs ++ [MNone; z])).
Proof.
  intros ops v zs a b q v' z H Hab HQ (x & Hx) HS.
  assert (exists y, mget v b = Some y) as (y & Ey).
  { destruct q; cbn [ask mvstep] in HS; destruct (mget v b); eauto; discriminate. }
  assert (La : a < length v) by (eapply mget_lt; eauto). assert (Lb : b < length v) by (eapply mget_lt; eauto).
  assert (Q : forall v2 w, mget v2 a = Some w -> x_rows w = x_rows y -> x_cols w = x_cols y -> x_st w = x_st y ->
              exists v3, mvrun o norm_of eqv v2 [ask q a] = Some (v3, [z])).
  { intros v2 w Hw E1 E2 E3. destruct HQ as [->|(i & j & ->)]; cbn [ask mvrun mvstep] in *; rewrite Hw; rewrite Ey in HS.
    - rewrite E1, E2. inversion HS; subst. eauto.
    - rewrite E1, E2, E3. destruct (_ && _); [|discriminate]. destruct (nth_error _ _); [|discriminate].
      inversion HS; subst. eauto. }
  remember [ask q a] as L eqn:EL.
  split.
  - assert (exists v2, mvrun o norm_of eqv v (MSwap a b :: L) = Some (v2, [MNone; z])) as (v2 & E);
      [|eapply obs; eauto].
    change (MSwap a b :: L) with ([MSwap a b] ++ L). rewrite mvrun_app.
    cbn [mvrun mvstep]. rewrite Hx, Ey.
    edestruct Q as (v3 & E3); [| | | |rewrite E3; simpl; eauto].
    + rewrite mget_other by lia. apply mget_put; auto.
    + reflexivity. + reflexivity. + reflexivity.
  - assert (exists v2, mvrun o norm_of eqv v (MSwap b a :: L) = Some (v2, [MNone; z])) as (v2 & E);
      [|eapply obs; eauto].
    change (MSwap b a :: L) with ([MSwap b a] ++ L). rewrite mvrun_app.
    cbn [mvrun mvstep]. rewrite Hx, Ey.
    edestruct Q as (v3 & E3); [| | | |rewrite E3; simpl; eauto].
    + apply mget_put. rewrite upd_length; auto.
    + reflexivity. + reflexivity. + reflexivity.
Qed.

(** C51: operator== compares identity.  It is true of a matrix and itself and
    false of any other matrix with elements, in particular of a fresh copy. *)
Theorem C51_operator_is_identity :
  forall ops v zs a b x y, vrun ops = Some (v, zs) -> mget v a = Some x -> mget v b = Some y ->
    v_vals (x_st x) <> [] ->
    exists m, run (ops ++ [MSame a b]) = Ok (m, zs ++ [MBool (a =? b)]).
Proof.
  intros ops v zs a b x y H Ha Hb Hne. eapply obs; eauto. apply one. cbn [mvstep]. rewrite Ha, Hb.
  destruct (a =? b); eauto. destruct (v_vals (x_st x)); [congruence|]. reflexivity.
Qed.
Theorem C51_copy_operator_refuted :
  forall ops v zs s x xs, vrun ops = Some (v, zs) -> mget v s = Some x -> 
    values (v_vals (x_st x)) = Some xs -> xs <> [] -> (forall e, In e xs -> eqv e e = true) ->
    exists m, run (ops ++ [MCopyCtor s; MEqual s (length v); MSame s (length v)])
              = Ok (m, zs ++ [MNone; MBool true; MBool false]).
Proof.
  intros ops v zs s x xs H Hs Hv Hne Hr.
  assert (A : alike eqv xs xs = true).
  { clear - Hr. induction xs as [|e xs IH]; simpl; auto. rewrite Hr by (left; auto). simpl. apply IH.
    intros; apply Hr; right; auto. }
  assert (Hl : s < length v) by (eapply mget_lt; eauto).
  eapply obs; eauto. cbn [mvrun mvstep]. rewrite Hs.
  rewrite mget_new, (mget_app_old _ _ _ _ Hs), Hv, !Nat.eqb_refl, A.
  destruct (Nat.eqb_spec s (length v)); [lia|].
  rewrite mget_new, (mget_app_old _ _ _ _ Hs).
  destruct (v_vals (x_st x)); [simpl in Hv; inversion Hv; congruence|]. reflexivity.
Qed.
End Programs.
Print Assumptions C52_programs. Print Assumptions C52_move_construct. Print Assumptions C52_move_assign.
Print Assumptions C52_swap. Print Assumptions C51_operator_is_identity. Print Assumptions C51_copy_operator_refuted.

(** A legal program with all kinds of calls. *)
Definition znorm (r c : nat) (b : buf Z) : res Z :=
  match values b with Some l => Ok (fold_left Z.add (map Z.abs l) 0%Z) | None => UB UninitRead end.
Definition mdemo : list (mop Z) :=
  [MSized 2 3; MAll 0 1%Z; MWrite 0 1 2 5%Z; MNorm 0; MCopyCtor 0; MSame 0 1; MEqual 0 1; MWrite 1 0 0 7%Z; MEqual 0 1;
   MMoveCtor 0; MRead 2 1 2; MNorm 2; MSize 2; MDefault; MMoveAssign 3 1; MRead 3 0 0; MNorm 3;
   MSwap 2 3; MRead 2 0 0; MRead 3 0 0; MSize 2; MResize 3 1 1; MResize 0 4 4; MDestroy 0; MDestroy 1; MDestroy 2; MDestroy 3].
Example C52_nonvacuous : exists v, mvrun ColMajor znorm Z.eqb [] mdemo =
  Some (v, [MNone; MNone; MNone; MNormIs 10%Z; MNone; MBool false; MBool true; MNone; MBool false;
   MNone; MVal (Some 5%Z); MNormIs 10%Z; MNat 6; MNone; MNone; MVal (Some 7%Z); MNormIs 16%Z;
   MNone; MVal (Some 7%Z); MVal (Some 1%Z); MNat 6; MNone; MThrew; MNone; MNone; MNone; MNone]) /\
  (forall x, In x v -> x = None) /\ mclean ColMajor znorm Z.eqb [] mdemo = true.
Proof.
  eexists. split; [vm_compute; reflexivity|]. split; [|vm_compute; reflexivity].
  simpl. intuition congruence.
Qed.

(** The unblocked dimensions of a blocked matrix are lost by a move construction. *)
Theorem C52_move_blocked_refuted :
  forall (T N : Type) o dbg (norm_of : nat -> nat -> buf T -> res N) eqv r c ur uc,
    exists m, mrun o dbg norm_of eqv msys0 [MSizedB r c ur uc; MUb 0; MMoveCtor 0; MDims 1; MUb 1]
      = Ok (m, [MNone; MPair ur uc; MNone; MPair r c; MPair 0 0]).
Proof. intros. eexists. simpl. reflexivity. Qed.
(** A move assignment keeps the target's cached norm: it is reported for the new contents. *)
Theorem C52_move_assign_norm_refuted :
  exists m, mrun ColMajor true znorm Z.eqb msys0
    [MSized 1 1; MAll 0 3%Z; MSized 1 1; MAll 1 8%Z; MNorm 1; MMoveAssign 1 0; MRead 1 0 0; MNorm 1]
    = Ok (m, [MNone; MNone; MNone; MNone; MNormIs 8%Z; MNone; MVal (Some 3%Z); MNormIs 8%Z]).
Proof. eexists. vm_compute. reflexivity. Qed.
(** A swap exchanges neither getSize(), nor the unblocked dimensions, nor the cached norms. *)
Theorem C52_swap_size_refuted :
  forall (T N : Type) o dbg (norm_of : nat -> nat -> buf T -> res N) eqv r c r' c' ur uc ur' uc',
    exists m, mrun o dbg norm_of eqv msys0
       [MSizedB r c ur uc; MSizedB r' c' ur' uc'; MSwap 0 1; MDims 0; MSize 0; MUb 0]
      = Ok (m, [MNone; MNone; MNone; MPair r' c'; MNat (r * c); MPair ur uc]).
Proof. intros. eexists. simpl. reflexivity. Qed.
Theorem C52_swap_norm_refuted :
  exists m, mrun ColMajor true znorm Z.eqb msys0
    [MSized 1 1; MAll 0 3%Z; MNorm 0; MSized 1 1; MAll 1 8%Z; MSwap 0 1; MRead 0 0 0; MNorm 0]
    = Ok (m, [MNone; MNone; MNormIs 3%Z; MNone; MNone; MNone; MVal (Some 8%Z); MNormIs 3%Z]).
Proof. eexists. vm_compute. reflexivity. Qed.
(** Resizing a blocked matrix leaves getSize() at the old value. *)
Theorem C52_blocked_resize_refuted :
  forall (T N : Type) o dbg (norm_of : nat -> nat -> buf T -> res N) eqv r c ur uc r' c' ur' uc',
    r * c <> r' * c' ->
    exists m, mrun o dbg norm_of eqv msys0
       [MSizedB r c ur uc; MResizeB 0 r' c' ur' uc'; MDims 0; MSize 0]
      = Ok (m, [MNone; MNone; MPair r' c'; MNat (r * c)]).
Proof.
  intros. cbn [mrun mstep with_storage step hdr_of msys0 m_hdr m_sys]. simpl.
  unfold hdr_of, with_storage. simpl. unfold Storage_Model.s_resize, get_obj. simpl. unfold alloc; rewrite !repeat_length.
  destruct (Nat.eqb_spec (r * c) (r' * c')); [contradiction|]. simpl. eexists. reflexivity.
Qed.
(** A matrix moved onto itself loses its elements but keeps its dimensions: the
    next access is undefined behaviour. *)
Theorem C52_self_move_refuted :
  exists m, mrun ColMajor true znorm Z.eqb msys0 [MSized 1 1; MAll 0 3%Z; MMoveAssign 0 0; MDims 0]
      = Ok (m, [MNone; MNone; MNone; MPair 1 1]) /\
    mstep ColMajor true znorm Z.eqb m (MRead 0 0 0) = UB NullDeref.
Proof. eexists. split; vm_compute; reflexivity. Qed.
Print Assumptions C52_move_blocked_refuted. Print Assumptions C52_swap_size_refuted.
Print Assumptions C52_blocked_resize_refuted.

(** Sparse matrices: a swap exchanges dimensions and elements, and getSize() only
    if both have the same number of elements (moves: C67). *)
Theorem C52_sparse_swap : forall (T : Type) (a b : sparse T) r c f r' c' g,
  sp_mat a r c f -> sp_mat b r' c' g -> s_o a = s_o b -> r * c = r' * c' ->
  sp_mat (fst (sp_swap a b)) r' c' g /\ sp_mat (snd (sp_swap a b)) r c f.
Proof.
  intros T a b r c f r' c' g Ha Hb Ho E. unfold sp_swap; simpl.
  pose proof Ha as (Wa & Ra & Ca & Fa & Sa). pose proof Hb as (Wb & Rb & Cb & Fb & Sb).
  assert (Ea : mkSparse (s_o b) (s_rows a) (s_cols a) (s_full b) (s_val a) (s_key a) (s_off a) = a)
    by (rewrite <- Ho, Fb, <- E, <- Fa; destruct a; reflexivity).
  assert (Eb : mkSparse (s_o a) (s_rows b) (s_cols b) (s_full a) (s_val b) (s_key b) (s_off b) = b)
    by (rewrite Ho, Fa, E, <- Fb; destruct b; reflexivity).
  rewrite Ea, Eb. auto.
Qed.
Theorem C52_sparse_swap_size_refuted : forall (T : Type) (a b : sparse T),
  s_full (fst (sp_swap a b)) = s_full a /\ s_rows (fst (sp_swap a b)) = s_rows b /\ s_cols (fst (sp_swap a b)) = s_cols b.
Proof. auto. Qed.
Print Assumptions C52_sparse_swap.

(** The same at the level of matrix values: after swap each matrix has the
    dimensions and elements of the other, may or may not be resized to a given size
    exactly as the other could, and then reports the same dimensions. *)
Theorem C52_swap_exchanges : forall (T : Type) (a b : dense T) r c f r' c' g,
  is_mat a r c f -> is_mat b r' c' g -> d_orient a = d_orient b ->
  (is_mat (fst (d_swap a b)) r' c' g /\ is_mat (snd (d_swap a b)) r c f) /\
  (forall n m, snd (d_resize (fst (d_swap a b)) n m) = snd (d_resize b n m) /\
               snd (d_resize (snd (d_swap a b)) n m) = snd (d_resize a n m)) /\
  d_swap (fst (d_swap a b)) (snd (d_swap a b)) = (a, b).
Proof.
  intros T a b r c f r' c' g Ha Hb Ho.
  destruct a as [[oa ra ca sa lra lca ba] fa ma wa], b as [[ob rb cb sb lrb lcb bb] fb mb wb].
  destruct Ha as [(A1 & A2 & A3) VA], Hb as [(B1 & B2 & B3) VB]. cbn in *. subst.
  split; [|split].
  - split; (split; [repeat split; assumption|]); assumption.
  - intros n m. unfold d_resize; cbn.
    split; match goal with |- context [if ?x then _ else _] => destruct x end; reflexivity.
  - reflexivity.
Qed.
Print Assumptions C52_swap_exchanges.
Example C52_swap_exchanges_nonvacuous :
  exists (a b : dense Z) f g, is_mat a 2 3 f /\ is_mat b 3 1 g /\ d_orient a = d_orient b /\
    snd (d_resize a 5 5) = false /\ snd (d_resize b 5 5) = true.
Proof.
  exists (mkDense (own_shape ColMajor 2 3) 6 (map Some [1;2;3;4;5;6]%Z) true).
  exists (mkDense (own_shape ColMajor 3 1) 3 (map Some [7;8;9]%Z) false).
  exists (fun i j => nth (i + 2 * j) [1;2;3;4;5;6]%Z 0%Z), (fun i j => nth i [7;8;9]%Z 0%Z).
  split; [|split; [|split; [reflexivity|split; reflexivity]]].
  - split; [repeat split|]. split; [reflexivity|split; [reflexivity|]]. intros i j Hi Hj.
    destruct i as [|[|i]]; [| |lia]; destruct j as [|[|[|j]]]; try lia; reflexivity.
  - split; [repeat split|]. split; [reflexivity|split; [reflexivity|]]. intros i j Hi Hj.
    destruct j; [|lia]. destruct i as [|[|[|i]]]; try lia; reflexivity.
Qed.
