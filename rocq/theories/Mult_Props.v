(** C16, C24-C29: products.  Vocabulary: Dense_Spec.v, Sparse_Spec.v and
    Mult_Spec.v ([prod_at], [prod_ss_at], [mat_prod] ...).  [fma c x y] stands for
    the C++ expression [c + x*y]; no law about it is assumed unless [RingLaws]
    is. *)
From Verif Require Import Base BaseLemmas Dense_Model Dense_Spec Dense_Proofs Dense2_Proofs Dense3_Proofs Sparse_Model Sparse_Spec
  Sparse_Proofs Sparse2_Proofs Sparse3_Proofs Sparse4_Proofs SparseT_Proofs SparseP_Proofs SparseF_Proofs
  Mult_Model Mult_Spec Mult_Proofs Mult2_Proofs Mult3_Proofs Dense_Props Sparse_Props.

(** ** C24.  Operands: column-major matrices or non-empty windows of such; the
    result object is any owning column-major matrix (the operator builds a
    default-constructed one). *)
Theorem C24_dense_product :
  forall (T1 T2 T3 : Type) (fma : T3 -> T1 -> T2 -> T3) (zero : T3) dbg
      (a : dense T1) (b : dense T2) (c : dense T3) m n l fa fb,
    col_source a -> view a m n fa -> col_source b -> view b n l fb ->
    fresh_ok c -> d_orient c = ColMajor ->
    exists d, mul_dd fma zero dbg a b c = Ok d /\
      is_mat d m l (fun i j => fold_left (fun acc k => fma acc (fa i k) (fb k j)) (seq 0 n) zero) /\
      full_ok d /\ d_orient d = ColMajor /\ d_own d = true.
Proof.
  intros T1 T2 T3 fma zero dbg a b c m n l fa fb Sa Va Sb Vb Hf Oc.
  destruct (col_source_ok a Sa) as (_ & Ia & Oa). destruct (col_source_ok b Sb) as (_ & Ib & Ob).
  exact (mul_dd_spec fma zero dbg a b c m n l fa fb Va Ia Oa Vb Ib Ob Hf Oc).
Qed.
Print Assumptions C24_dense_product.

(** Over a ring this is the matrix product. *)
Theorem C24_dense_product_ring :
  forall (T : Type) (SC : Scalar T), RingLaws T -> forall dbg (a b : dense T) m n l fa fb,
    col_source a -> view a m n fa -> col_source b -> view b n l fb ->
    exists d, mul_dd s_fma s0 dbg a b (d_default ColMajor) = Ok d /\ is_mat d m l (mat_prod n fa fb).
Proof.
  intros T SC RL dbg a b m n l fa fb Sa Va Sb Vb.
  destruct (C24_dense_product T T T s_fma s0 dbg a b (d_default ColMajor) m n l fa fb Sa Va Sb Vb) as (d & E & M & _).
  { apply default_fresh. } { reflexivity. }
  exists d. split; [exact E|]. eapply is_mat_ext; [exact M|]. intros i j _ _. apply prod_at_ring.
Qed.
Print Assumptions C24_dense_product_ring.

(** Mismatched inner dimensions stop at the assertion in a debug build. *)
Theorem C24_dimension_check :
  forall (T1 T2 T3 : Type) (fma : T3 -> T1 -> T2 -> T3) zero (a : dense T1) (b : dense T2) c,
    d_cols a <> d_rows b -> mul_dd fma zero true a b c = AssertFail.
Proof.
  intros. unfold mul_dd, cassert. destruct (Nat.eqb_spec (d_cols a) (d_rows b)); [contradiction|reflexivity].
Qed.

Definition demoB : dense Z := mkDense (own_shape ColMajor 3 2) 6 (map Some [1; 0; 2; 3; 1; 0]%Z) true.
Definition demoB_f (i j : nat) : Z := nth (i + 3 * j) [1; 0; 2; 3; 1; 0]%Z 0%Z.
Lemma demoB_mat : is_mat demoB 3 2 demoB_f.
Proof.
  split; [repeat split; reflexivity|]. split; [reflexivity|]. split; [reflexivity|].
  intros [|[|[|i]]] [|[|j]] Hi Hj; try lia; reflexivity.
Qed.
Example C24_nonvacuous :
  col_source demoC /\ view demoC 2 3 demoC_f /\ col_source demoB /\ view demoB 3 2 demoB_f /\
  exists d, mul_dd s_fma 0%Z true demoC demoB (d_default ColMajor) = Ok d /\ d_buf d = map Some [7; 16; 5; 17]%Z.
Proof.
  split; [apply src_mat; [exact (proj1 demoC_mat)|reflexivity]|]. split; [exact (proj2 demoC_mat)|].
  split; [apply src_mat; [exact (proj1 demoB_mat)|reflexivity]|]. split; [exact (proj2 demoB_mat)|].
  eexists. vm_compute. auto.
Qed.

(** Row-major operands are read in storage order although the loops are written
    for column-major storage: [[1 2][3 4]] * [[1 2][3 4]] is not [[7 10][15 22]]. *)
Theorem C24_row_major_refuted :
  is_mat demoRsq 2 2 (fun i j => Z.of_nat (2 * i + j + 1)) /\
  exists d, mul_dd s_fma 0%Z true demoRsq demoRsq (d_default ColMajor) = Ok d /\
    dget true d 0 1 = Ok 15%Z /\
    mat_prod 2 (fun i j => Z.of_nat (2 * i + j + 1)) (fun i j => Z.of_nat (2 * i + j + 1)) 0 1 = 10%Z.
Proof.
  split.
  - split; [repeat split; reflexivity|]. split; [reflexivity|]. split; [reflexivity|].
    intros [|[|i]] [|[|j]] Hi Hj; try lia; reflexivity.
  - eexists. vm_compute. auto.
Qed.
Print Assumptions C24_row_major_refuted.

(** ** C25.  Any orientation of the three matrices, matrices or windows, empty
    ones included. *)
Theorem C25_cursor_product :
  forall (T1 T2 T3 : Type) (fma : T3 -> T1 -> T2 -> T3) (zero : T3)
      (a : dense T1) (b : dense T2) (c : dense T3) m n l fa fb,
    view a m n fa -> legal a -> view b n l fb -> fresh_ok c ->
    exists d, mul_cursor fma zero a b c = Ok d /\
      is_mat d m l (fun i j => fold_left (fun acc k => fma acc (fa i k) (fb k j)) (seq 0 n) zero) /\
      full_ok d /\ d_orient d = d_orient c /\ d_own d = true.
Proof. exact @mul_cursor_spec. Qed.
Print Assumptions C25_cursor_product.

Example C25_nonvacuous : legal demoC /\ view demoC 2 3 demoC_f /\ legal demoR /\
  exists d, mul_cursor s_fma 0%Z demoC demoR (d_default RowMajor) = Ok d /\ dget true d 1 0 = Ok 49%Z.
Proof.
  split; [apply legal_own; exact (proj1 demoC_mat)|]. split; [exact (proj2 demoC_mat)|].
  split; [apply legal_own; repeat split; reflexivity|]. eexists. vm_compute. auto.
Qed.

(** ** C26.  Sparse times sparse; [nz] is the implicit conversion to bool. *)
Theorem C26_sparse_product :
  forall (T1 T2 T3 : Type) (fma : T3 -> T1 -> T2 -> T3) (zero : T3) (nz : T3 -> bool) dbg
      (a : sparse T1) (b : sparse T2) (c : sparse T3) m n l fa fb,
    sp_mat a m n fa -> s_o a = ColMajor -> sp_mat b n l fb -> s_o b = ColMajor -> s_o c = ColMajor ->
    exists s, mul_ss fma zero nz dbg a b c = Ok s /\ s_o s = ColMajor /\
      sp_mat s m l (fun i j => let v := prod_ss_at fma zero n fa fb i j in if nz v then Some v else None).
Proof. exact @mul_ss_spec. Qed.
Print Assumptions C26_sparse_product.

Theorem C26_sparse_product_ring :
  forall (T : Type) (SC : Scalar T), RingLaws T -> forall dbg (a b : sparse T) m n l fa fb,
    sp_mat a m n fa -> s_o a = ColMajor -> sp_mat b n l fb -> s_o b = ColMajor ->
    exists s fs, mul_ss s_fma s0 s_nz dbg a b (s_default ColMajor) = Ok s /\ s_o s = ColMajor /\ sp_mat s m l fs /\
      (forall i j, i < m -> j < l ->
         dflt s0 (fs i j) = mat_prod n (fun i j => dflt s0 (fa i j)) (fun i j => dflt s0 (fb i j)) i j) /\
      (forall i j v, i < m -> j < l -> stored s i j v -> v <> s0).
Proof.
  intros T SC RL dbg a b m n l fa fb Ha Oa Hb Ob.
  destruct (mul_ss_spec s_fma s0 s_nz dbg a b (s_default ColMajor) m n l fa fb Ha Oa Hb Ob eq_refl) as (s & E & O & M).
  exists s. eexists. split; [exact E|]. split; [exact O|]. split; [exact M|]. split.
  - intros i j _ _. cbv beta zeta. rewrite prod_ss_ring.
    match goal with |- dflt _ (if ?b then _ else _) = _ => destruct b eqn:Eb end; [reflexivity|].
    cbn [dflt]. symmetry. now apply r_nz.
  - intros i j v Hi Hj Hst. apply M in Hst; auto. cbv beta zeta in Hst.
    match type of Hst with (if ?b then _ else _) = _ => destruct b eqn:Eb end; [|discriminate].
    injection Hst as <-. intros E0. apply r_nz in E0. congruence.
Qed.
Print Assumptions C26_sparse_product_ring.

(** [[1 0 2][0 3 0]] * [[1 0][0 1][-1 0]]: column 0 keeps only the -1. *)
Definition demoS3 : sparse Z :=
  mkSparse ColMajor 3 2 6 (map Some [2; -1; 1]%Z) (map Some [0; 2; 1]) (map Some [0; 2; 3]).
Example C26_nonvacuous : sp_mat demoS 2 3 demoS_f /\ sp_mat demoS3 3 2 (fun i j =>
    match i, j with 0, 0 => Some 2%Z | 2, 0 => Some (-1)%Z | 1, 1 => Some 1%Z | _, _ => None end) /\
  exists s, mul_ss s_fma 0%Z s_nz true demoS demoS3 (s_default ColMajor) = Ok s /\
    s_off s = map Some [0; 0; 1] /\ rd (s_val s) 0 = Ok 3%Z /\ rd (s_key s) 0 = Ok 1.
Proof.
  split; [exact demoS_mat|]. split.
  - apply sp_mat_lines. repeat split.
    exists [[(0, 2%Z); (2, (-1)%Z)]; [(1, 1%Z)]]. split; [|split; [reflexivity|split]].
    + split; [reflexivity|]. exists [], []. repeat split.
    + repeat constructor.
    + intros [|[|[|i]]] [|[|j]] Hi Hj; cbn in Hi, Hj; try lia; reflexivity.
  - eexists; vm_compute; auto.
Qed.

(** ** C27 *)
Theorem C27_sparse_dense :
  forall (T1 T2 T3 : Type) (fma : T3 -> T1 -> T2 -> T3) (zero : T3) dbg
      (a : sparse T1) (b : dense T2) (c : dense T3) m n l fa fb,
    sp_mat a m n fa -> s_o a = ColMajor -> is_mat b n l fb -> d_orient b = ColMajor ->
    fresh_ok c -> d_orient c = ColMajor ->
    exists d, mul_sd fma zero dbg a b c = Ok d /\ is_mat d m l (prod_sd_at fma zero n fa fb) /\
      full_ok d /\ d_orient d = ColMajor /\ d_own d = true.
Proof. exact @mul_sd_spec. Qed.
Print Assumptions C27_sparse_dense.

Theorem C27_dense_sparse :
  forall (T1 T2 T3 : Type) (fma : T3 -> T1 -> T2 -> T3) (zero : T3) dbg
      (a : dense T1) (b : sparse T2) (c : dense T3) m n l fa fb,
    view a m n fa -> legal a -> sp_mat b n l fb -> s_o b = ColMajor -> fresh_ok c ->
    exists d, mul_ds fma zero dbg a b c = Ok d /\ is_mat d m l (prod_ds_at fma zero n fa fb) /\
      full_ok d /\ d_orient d = d_orient c /\ d_own d = true.
Proof. exact @mul_ds_spec. Qed.
Print Assumptions C27_dense_sparse.

Theorem C27_mixed_ring :
  forall (T : Type) (SC : Scalar T), RingLaws T -> forall dbg (s : sparse T) (d : dense T) m n l,
    (forall fs fd, sp_mat s m n fs -> s_o s = ColMajor -> is_mat d n l fd -> d_orient d = ColMajor ->
       exists e, mul_sd s_fma s0 dbg s d (d_default ColMajor) = Ok e /\
         is_mat e m l (mat_prod n (fun i j => dflt s0 (fs i j)) fd)) /\
    (forall fs fd, is_mat d m n fd -> sp_mat s n l fs -> s_o s = ColMajor ->
       exists e, mul_ds s_fma s0 dbg d s (d_default ColMajor) = Ok e /\
         is_mat e m l (mat_prod n fd (fun i j => dflt s0 (fs i j)))).
Proof.
  intros T SC RL dbg s d m n l. split.
  - intros fs fd Hs Os Hd Od.
    destruct (mul_sd_spec s_fma s0 dbg s d (d_default ColMajor) m n l fs fd Hs Os Hd Od (default_fresh _) eq_refl) as (e & E & M & _).
    exists e. split; [exact E|]. eapply is_mat_ext; [exact M|]. intros; apply prod_sd_ring.
  - intros fs fd [Wd Vd] Hs Os.
    destruct (mul_ds_spec s_fma s0 dbg d s (d_default ColMajor) m n l fd fs Vd (legal_own d Wd) Hs Os (default_fresh _)) as (e & E & M & _).
    exists e. split; [exact E|]. eapply is_mat_ext; [exact M|]. intros; apply prod_ds_ring.
Qed.
Print Assumptions C27_mixed_ring.

Example C27_nonvacuous :
  sp_mat demoS 2 3 demoS_f /\ is_mat demoB 3 2 demoB_f /\
  (exists d, mul_sd s_fma 0%Z true demoS demoB (d_default ColMajor) = Ok d /\ d_buf d = map Some [5; 0; 3; 3]%Z) /\
  (exists d, mul_ds s_fma 0%Z true demoB demoS (d_default ColMajor) = Ok d /\
     d_buf d = map Some [1; 0; 2; 9; 3; 0; 2; 0; 4]%Z).
Proof.
  split; [exact demoS_mat|]. split; [exact demoB_mat|]. split; eexists; vm_compute; auto.
Qed.

(** ** C28 *)
Theorem C28_zero_products :
  forall dbg ra n cb (z : zmat), exists w, mul_zero dbg ra n n cb z = Ok w /\ z_rows w = ra /\ z_cols w = cb.
Proof.
  intros. unfold mul_zero, cassert. rewrite Nat.eqb_refl, andb_false_r. cbn [bind]. eexists; split; [reflexivity|]. auto.
Qed.
Print Assumptions C28_zero_products.
Theorem C28_dimension_check : forall ra ca rb cb z, ca <> rb -> mul_zero true ra ca rb cb z = AssertFail.
Proof. intros. unfold mul_zero, cassert. destruct (Nat.eqb_spec ca rb); [contradiction|reflexivity]. Qed.

(** getSize() of the product keeps the value it had before the resize. *)
Theorem C28_getsize_refuted : exists w, mul_zero true 2 3 3 4 (z_new 0 0) = Ok w /\ z_rows w = 2 /\ z_cols w = 4 /\ z_full w = 0.
Proof. eexists; vm_compute; auto. Qed.

(** ** C29.  [dot] is the back-end's evaluation of the inner product from the
    list of factor pairs in index order; the reference routine for gemm and
    csrmm is part of the model (Mult_Model.v). *)
Theorem C29_gemm :
  forall (T : Type) (dot : list (T * T) -> T) dbg (a b c : dense T) m n l fa fb,
    is_mat a m n fa -> d_orient a = ColMajor -> is_mat b n l fb -> d_orient b = ColMajor ->
    fresh_ok c -> d_orient c = ColMajor -> 1 <= n ->
    (Z.of_nat m < 2 ^ 31)%Z -> (Z.of_nat n < 2 ^ 31)%Z -> (Z.of_nat l < 2 ^ 31)%Z ->
    exists d, mul_blas dot dbg a b c = Ok d /\
      is_mat d m l (fun i j => dot (map (fun k => (fa i k, fb k j)) (seq 0 n))) /\
      full_ok d /\ d_orient d = ColMajor /\ d_own d = true.
Proof. exact @mul_blas_spec. Qed.
Print Assumptions C29_gemm.

(** With a back-end summing in index order the adapter and the native product
    agree exactly. *)
Theorem C29_gemm_is_native :
  forall (T : Type) (fma : T -> T -> T -> T) (zero : T) dbg (a b : dense T) m n l fa fb,
    is_mat a m n fa -> d_orient a = ColMajor -> is_mat b n l fb -> d_orient b = ColMajor -> 1 <= n ->
    (Z.of_nat m < 2 ^ 31)%Z -> (Z.of_nat n < 2 ^ 31)%Z -> (Z.of_nat l < 2 ^ 31)%Z ->
    exists d e, mul_blas (fun ps => fold_left (fun acc p => fma acc (fst p) (snd p)) ps zero) dbg a b (d_default ColMajor) = Ok d /\
      mul_dd fma zero dbg a b (d_default ColMajor) = Ok e /\
      exists f, is_mat d m l f /\ is_mat e m l f.
Proof.
  intros T fma zero dbg a b m n l fa fb Ma Oa Mb Ob Hn B1 B2 B3.
  destruct (mul_blas_spec (fun ps => fold_left (fun acc p => fma acc (fst p) (snd p)) ps zero) dbg a b (d_default ColMajor) m n l fa fb
     Ma Oa Mb Ob (default_fresh _) eq_refl Hn B1 B2 B3) as (d & Ed & Md & _).
  destruct Ma as [Wa Va], Mb as [Wb Vb].
  destruct (mul_dd_spec fma zero dbg a b (d_default ColMajor) m n l fa fb Va (or_introl Wa) Oa Vb (or_introl Wb) Ob (default_fresh _) eq_refl)
    as (e & Ee & Me & _).
  exists d, e. split; [exact Ed|]. split; [exact Ee|]. eexists. split; [|exact Me].
  eapply is_mat_ext; [exact Md|]. intros i j _ _. cbv beta. rewrite fold_left_map. reflexivity.
Qed.
Print Assumptions C29_gemm_is_native.

(** Mixed precision: the operands are rounded to float, multiplied in float and
    the result converted back. *)
Theorem C29_mixed_precision :
  forall (F D : Type) (toF : D -> F) (toD : F -> D) (dot : list (F * F) -> F) dbg m n l,
    1 <= n -> (Z.of_nat m < 2 ^ 31)%Z -> (Z.of_nat n < 2 ^ 31)%Z -> (Z.of_nat l < 2 ^ 31)%Z ->
    (forall (a : dense F) (b : dense D) fa fb,
       is_mat a m n fa -> d_orient a = ColMajor -> is_mat b n l fb -> d_orient b = ColMajor ->
       exists d, mul_mixed_fd toF toD dot dbg a b = Ok d /\
         is_mat d m l (fun i j => toD (dot (map (fun k => (fa i k, toF (fb k j))) (seq 0 n)))) /\ d_orient d = ColMajor) /\
    (forall (a : dense D) (b : dense F) fa fb,
       is_mat a m n fa -> d_orient a = ColMajor -> is_mat b n l fb -> d_orient b = ColMajor ->
       exists d, mul_mixed_df toF toD dot dbg a b = Ok d /\
         is_mat d m l (fun i j => toD (dot (map (fun k => (toF (fa i k), fb k j)) (seq 0 n)))) /\ d_orient d = ColMajor).
Proof.
  intros F D toF toD dot dbg m n l Hn B1 B2 B3. split; intros a b fa fb Ma Oa Mb Ob.
  - destruct (mul_mixed_fd_spec toF toD dot dbg a b m n l fa fb Ma Oa Mb Ob Hn B1 B2 B3) as (d & E & M & _ & O & _). eauto.
  - destruct (mul_mixed_df_spec toF toD dot dbg a b m n l fa fb Ma Oa Mb Ob Hn B1 B2 B3) as (d & E & M & _ & O & _). eauto.
Qed.
Print Assumptions C29_mixed_precision.

Theorem C29_csrmm :
  forall (T : Type) (dot : list (T * T) -> T) dbg (a : sparse T) (b c : dense T) m n l fa fb,
    sp_mat a m n fa -> s_o a = ColMajor -> is_mat b n l fb -> d_orient b = ColMajor ->
    fresh_ok c -> d_orient c = ColMajor -> 1 <= m ->
    (Z.of_nat m < 2 ^ 31)%Z -> (Z.of_nat n + 1 < 2 ^ 31)%Z -> (Z.of_nat l < 2 ^ 31)%Z ->
    (Z.of_nat (m * n) + 1 < 2 ^ 31)%Z ->
    exists d, mul_csrmm dot dbg a b c = Ok d /\
      is_mat d m l (fun i j =>
        dot (flat_map (fun k => match fa i k with Some x => [(x, fb k j)] | None => [] end) (seq 0 n))) /\
      full_ok d /\ d_orient d = ColMajor /\ d_own d = true.
Proof. exact @mul_csrmm_spec. Qed.
Print Assumptions C29_csrmm.

Definition demo_dot (ps : list (Z * Z)) : Z := fold_left (fun acc p => (acc + fst p * snd p)%Z) ps 0%Z.
Example C29_nonvacuous :
  is_mat demoC 2 3 demoC_f /\ is_mat demoB 3 2 demoB_f /\ sp_mat demoS 2 3 demoS_f /\
  (exists d, mul_blas demo_dot true demoC demoB (d_default ColMajor) = Ok d /\ d_buf d = map Some [7; 16; 5; 17]%Z) /\
  (exists d, mul_csrmm demo_dot true demoS demoB (d_default ColMajor) = Ok d /\ d_buf d = map Some [5; 0; 3; 3]%Z).
Proof.
  split; [exact demoC_mat|]. split; [exact demoB_mat|]. split; [exact demoS_mat|]. split; eexists; vm_compute; auto.
Qed.

(** With an empty inner dimension the leading dimension passed for B is 0, which
    the reference gemm rejects: C stays uninitialised instead of zero. *)
Theorem C29_empty_inner_dimension_refuted :
  forall (T : Type) (dot : list (T * T) -> T) (zero : T), exists d e,
    mul_blas dot true (@d_new T ColMajor 1 0) (@d_new T ColMajor 0 1) (d_default ColMajor) = Ok d /\
    dget true d 0 0 = UB UninitRead /\
    mul_dd (fun c _ _ => c) zero true (@d_new T ColMajor 1 0) (@d_new T ColMajor 0 1) (d_default ColMajor) = Ok e /\
    dget true e 0 0 = Ok zero.
Proof. intros. eexists; eexists. vm_compute. auto. Qed.
Print Assumptions C29_empty_inner_dimension_refuted.

(** ** C12 for sparse matrices: all r*c elements are stored, column by column. *)
Theorem C12_sparse_filler :
  forall (T : Type) (S : Scalar T) r c nnz, nnz = 0 \/ r * c <= nnz ->
    exists s, s_continuous_filler (@s_new T ColMajor r c nnz) = Ok s /\ s_o s = ColMajor /\
      sp_mat s r c (fun i j => Some (cnt (j * r + i))).
Proof. exact @s_continuous_spec. Qed.
Print Assumptions C12_sparse_filler.
(** A requested nnz below r*c: the filler writes keys past the key array. *)
Theorem C12_sparse_filler_small_nnz_refuted :
  exists u, s_continuous_filler (@s_new Z ColMajor 2 2 1) = UB u.
Proof. eexists; vm_compute; reflexivity. Qed.

(** ** C16.  Every column-major sparse matrix obtained by any sequence of the
    library's operations is well formed, and so is a row-major one converted from
    it. *)
Inductive produced : forall T : Type, sparse T -> Prop :=
| p_filler T (S : Scalar T) r c nnz s : nnz = 0 \/ r * c <= nnz ->
    s_continuous_filler (@s_new T ColMajor r c nnz) = Ok s -> produced T s
| p_dense T U (cv : T -> U) chk d r c f s : col_source d -> view d r c f ->
    s_of_dense cv chk ColMajor d = Ok s -> produced U s
| p_conv T U (cv : T -> U) m s : produced T m -> s_conv cv ColMajor m = Ok s -> produced U s
| p_transpose T m s : produced T m -> 1 <= s_rows m -> s_transpose m = Ok s -> produced T s
| p_binop A B C (ca : A -> C) (ub : B -> C) op dbg a b s : produced A a -> produced B b ->
    s_rows a = s_rows b -> s_cols a = s_cols b -> s_binop ca ub op dbg a b = Ok s -> produced C s
| p_product A B C (fma : C -> A -> B -> C) zero nz dbg a b c s : produced A a -> produced B b ->
    s_cols a = s_rows b -> s_o c = ColMajor -> mul_ss fma zero nz dbg a b c = Ok s -> produced C s.

Lemma sp_mat_self {T} (s : sparse T) r c f : sp_mat s r c f -> sp_mat s (s_rows s) (s_cols s) f.
Proof. intros H. pose proof H as (_ & <- & <- & _). exact H. Qed.

Theorem C16_sparse_well_formed :
  forall T (s : sparse T), produced T s ->
    s_o s = ColMajor /\ sp_wf s /\ s_full s = s_rows s * s_cols s /\ exists f, sp_mat s (s_rows s) (s_cols s) f.
Proof.
  assert (K : forall T (s : sparse T), produced T s -> s_o s = ColMajor /\ exists f, sp_mat s (s_rows s) (s_cols s) f).
  { induction 1 as [T S r c nnz s Hn E|T U cv chk d r c f s Hd Hv E|T U cv m s Hm IH E|T m s Hm IH Hr E
      |A B C ca ub op dbg a b s Ha IHa Hb IHb Hr Hc E|A B C fma zero nz dbg a b c s Ha IHa Hb IHb Hcr Oc E].
    - destruct (s_continuous_spec (T := T) r c nnz Hn) as (s' & E' & O & M). rewrite E in E'. injection E' as <-.
      split; auto. eexists. eapply sp_mat_self; exact M.
    - destruct (C15_dense_sparse_dense T U cv chk (cv (f 0 0)) ColMajor ColMajor d r c f Hd Hv) as (s' & e & E' & O & M & _).
      rewrite E in E'. injection E' as <-. split; auto. eexists. eapply sp_mat_self; exact M.
    - destruct IH as (O & f & M). destruct (s_conv_same cv m _ _ f M) as (t & E' & Ot & Mt). rewrite O in *.
      rewrite E in E'. injection E' as <-. split; auto. eexists. eapply sp_mat_self; exact Mt.
    - destruct IH as (O & f & M). destruct (s_transpose_spec m _ _ f M O Hr) as (t & E' & Ot & Mt & _).
      rewrite E in E'. injection E' as <-. split; auto. eexists. eapply sp_mat_self; exact Mt.
    - destruct IHa as (Oa & fa & Ma), IHb as (Ob & fb & Mb). rewrite <- Hr, <- Hc in Mb.
      destruct (s_binop_spec ca ub op dbg a b _ _ fa fb Ma Mb Oa Ob) as (t & E' & Ot & Mt).
      rewrite E in E'. injection E' as <-. split; auto. eexists. eapply sp_mat_self; exact Mt.
    - destruct IHa as (Oa & fa & Ma), IHb as (Ob & fb & Mb). rewrite <- Hcr in Mb.
      destruct (mul_ss_spec fma zero nz dbg a b c _ _ _ fa fb Ma Oa Mb Ob Oc) as (t & E' & Ot & Mt).
      rewrite E in E'. injection E' as <-. split; auto. eexists. eapply sp_mat_self; exact Mt. }
  intros T s H. destruct (K T s H) as (O & f & M). pose proof M as (W & _ & _ & F & _). eauto.
Qed.
Print Assumptions C16_sparse_well_formed.

(** The operations do not fail on such matrices, and conversion to row-major
    storage keeps well-formedness. *)
Theorem C16_operations_total :
  forall T (m : sparse T), produced T m ->
    (1 <= s_rows m -> exists t, s_transpose m = Ok t /\ produced T t) /\
    (1 <= s_rows m -> exists t, s_conv (fun x => x) RowMajor m = Ok t /\ s_o t = RowMajor /\ sp_wf t) /\
    (forall m2 C (op : T -> T -> C) ca ub dbg, produced T m2 -> s_rows m = s_rows m2 -> s_cols m = s_cols m2 ->
       exists t, s_binop ca ub op dbg m m2 = Ok t /\ produced C t) /\
    (forall m2 C (fma : C -> T -> T -> C) zero nz dbg, produced T m2 -> s_cols m = s_rows m2 ->
       exists t, mul_ss fma zero nz dbg m m2 (s_default ColMajor) = Ok t /\ produced C t).
Proof.
  intros T m H. destruct (C16_sparse_well_formed T m H) as (O & _ & _ & f & M). repeat split.
  - intros Hr. destruct (s_transpose_spec m _ _ f M O Hr) as (t & E & _). exists t. split; auto. eapply p_transpose; eauto.
  - intros Hr. destruct (s_conv_to_row (fun x => x) m _ _ f M O Hr) as (t & E & Ot & Mt). exists t. destruct Mt. auto.
  - intros m2 C op ca ub dbg H2 Hr Hc. destruct (C16_sparse_well_formed T m2 H2) as (O2 & _ & _ & f2 & M2).
    rewrite <- Hr, <- Hc in M2. destruct (s_binop_spec ca ub op dbg m m2 _ _ f f2 M M2 O O2) as (t & E & _).
    exists t. split; auto. eapply (p_binop T T C ca ub op dbg m m2); eauto.
  - intros m2 C fma zero nz dbg H2 Hcr. destruct (C16_sparse_well_formed T m2 H2) as (O2 & _ & _ & f2 & M2).
    rewrite <- Hcr in M2.
    destruct (mul_ss_spec fma zero nz dbg m m2 (s_default ColMajor) _ _ _ f f2 M O M2 O2 eq_refl) as (t & E & _).
    exists t. split; auto. eapply (p_product T T C fma zero nz dbg m m2 (s_default ColMajor)); eauto.
Qed.
Print Assumptions C16_operations_total.

Example C16_nonvacuous : exists s t, s_of_dense (fun x => x) demoC_chk ColMajor demoC = Ok s /\ produced Z s /\
  s_transpose s = Ok t /\ produced Z t /\ s_off t = map Some [0; 0; 3].
Proof.
  destruct C15_nonvacuous as (Hs & _).
  assert (E : s_of_dense (fun x => x) demoC_chk ColMajor demoC = Ok (mkSparse ColMajor 2 3 6
     (map Some [4; 5; 6]%Z) (map Some [1; 1; 1]) (map Some [0; 1; 2; 3]))) by reflexivity.
  assert (P : produced Z (mkSparse ColMajor 2 3 6 (map Some [4; 5; 6]%Z) (map Some [1; 1; 1]) (map Some [0; 1; 2; 3]))).
  { eapply (p_dense Z Z (fun x => x) demoC_chk demoC 2 3 demoC_f); [exact Hs|exact (proj2 demoC_mat)|exact E]. }
  eexists; eexists. split; [exact E|]. split; [exact P|]. split; [reflexivity|]. split; [|reflexivity].
  eapply p_transpose; [exact P|cbn; lia|reflexivity].
Qed.

(** C07 for the other types: every sparse matrix the library produces reports
    rows * columns as its size; a Zero matrix does so until it is resized. *)
Theorem C07_sparse_getsize :
  forall (T : Type) (m : sparse T), produced T m -> s_full m = s_rows m * s_cols m.
Proof. intros T m H. destruct (C16_sparse_well_formed T m H) as (_ & _ & _ & f & _ & _ & _ & E & _). exact E. Qed.
Print Assumptions C07_sparse_getsize.
Theorem C07_zero_resize_refuted :
  z_full (z_new 2 3) = 2 * 3 /\ z_rows (z_resize (z_new 2 3) 1 1) = 1 /\ z_cols (z_resize (z_new 2 3) 1 1) = 1 /\
  z_full (z_resize (z_new 2 3) 1 1) = 6.
Proof. repeat split. Qed.
Print Assumptions C07_zero_resize_refuted.
