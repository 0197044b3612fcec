(** C15, C18-C22: sparse matrices, conversions, transposition, plus and minus.
    Vocabulary: Dense_Spec.v ([view], [is_mat], [inside]) and Sparse_Spec.v
    ([stored], [sp_wf], [sp_mat], [count2], [dflt]). *)
From Verif Require Import Base BaseLemmas Dense_Model Dense_Spec Dense_Proofs Dense2_Proofs Sparse_Model Sparse_Spec
  Sparse_Proofs Sparse2_Proofs Sparse3_Proofs Sparse4_Proofs SparseT_Proofs SparseP_Proofs Dense_Props.

(** ** C15 *)

(** The sources covered: column-major matrices and non-empty windows of
    column-major matrices (with a memory below 2^63 elements). *)
Inductive col_source {T} : dense T -> Prop :=
| src_mat d : wf_mem d -> d_orient d = ColMajor -> col_source d
| src_win p nr nc br bc : inside p nr nc br bc -> 1 <= nr -> 1 <= nc ->
    (Z.of_nat (length (d_buf p)) < 2 ^ 63)%Z -> col_source (d_window p nr nc br bc).

Lemma col_source_ok {T} (d : dense T) : col_source d ->
  sh_ok (d_sh d) (length (d_buf d)) /\ iterable d /\ d_orient d = ColMajor.
Proof.
  destruct 1 as [d W O|p nr nc br bc I H1 H2 H3].
  - split; [now apply wf_sh_ok|]. split; [now left|auto].
  - split; [exact (wf_window_ok p nr nc br bc I)|]. split; [now apply window_iterable|]. now destruct I as (_ & O & _).
Qed.

Theorem C15_dense_sparse_dense :
  forall (T U : Type) (cv : T -> U) (chk : T -> bool) (zero : U) (o1 o2 : orient) (d : dense T) r c f,
    col_source d -> view d r c f ->
    exists s e, s_of_dense cv chk o1 d = Ok s /\ s_o s = o1 /\
      sp_mat s r c (fun i j => if chk (f i j) then Some (cv (f i j)) else None) /\
      s_nnz s = count2 r c (fun i j => chk (f i j)) /\
      d_of_sparse (fun x => x) zero o2 s = Ok e /\ d_orient e = o2 /\ full_ok e /\
      is_mat e r c (fun i j => if chk (f i j) then cv (f i j) else zero).
Proof.
  intros T U cv chk zero o1 o2 d r c f Hs Hv. destruct (col_source_ok d Hs) as (Hok & Hit & Ho).
  destruct (s_of_dense_spec cv chk o1 d r c f _ Hv Hok Ho (le_n _)) as (s & E & Os & N & M).
  destruct (d_of_sparse_spec (fun x => x) zero o2 s r c _ M) as (e & E2 & Me & Oe & Fe & _).
  exists s, e. unfold s_of_dense. rewrite (d_count_spec chk d r c f Hv Hit). cbn [bind].
  split; [exact E|]. split; [exact Os|]. split; [exact M|]. split; [exact N|]. split; [exact E2|].
  split; [exact Oe|]. split; [exact Fe|].
  eapply is_mat_ext; [exact Me|]. intros i j _ _. cbv beta. destruct (chk (f i j)); reflexivity.
Qed.
Print Assumptions C15_dense_sparse_dense.

Definition demoC_chk (v : Z) : bool := (3 <? v)%Z.
Example C15_nonvacuous : col_source demoC /\ col_source (d_window demoC 2 2 0 1) /\
  exists s e, s_of_dense (fun x => x) demoC_chk ColMajor demoC = Ok s /\ s_nnz s = 3 /\
    d_of_sparse (fun x => x) 0%Z ColMajor s = Ok e /\
    d_buf e = map Some [0; 4; 0; 5; 0; 6]%Z.
Proof.
  split; [apply src_mat; [exact (proj1 demoC_mat)|reflexivity]|].
  split; [apply src_win; [repeat split; cbn; lia|lia|lia|reflexivity]|].
  eexists; eexists; vm_compute; auto.
Qed.

(** Row-major sources are walked column by column although the target is
    addressed row by row.  The tall 3 x 2 matrix writes past the offset array;
    the square one comes back transposed. *)
Definition demoRsq : dense Z :=
  mkDense (own_shape RowMajor 2 2) 4 (map Some [1; 2; 3; 4]%Z) true.
Theorem C15_row_major_source_refuted :
  is_mat demoR 3 2 (fun i j => Z.of_nat (2 * i + j + 1)) /\
  is_mat demoRsq 2 2 (fun i j => Z.of_nat (2 * i + j + 1)) /\
  s_of_dense (fun x => x) (fun _ => true) RowMajor demoR = UB OOBWrite /\
  exists s e, s_of_dense (fun x => x) (fun _ => true) RowMajor demoRsq = Ok s /\
    d_of_sparse (fun x => x) 0%Z RowMajor s = Ok e /\
    is_mat e 2 2 (fun i j => Z.of_nat (2 * j + i + 1)).
Proof.
  split; [|split; [|split; [reflexivity|]]].
  - split; [repeat split; reflexivity|]. split; [reflexivity|]. split; [reflexivity|].
    intros [|[|[|i]]] [|[|j]] Hi Hj; try lia; reflexivity.
  - split; [repeat split; reflexivity|]. split; [reflexivity|]. split; [reflexivity|].
    intros [|[|i]] [|[|j]] Hi Hj; try lia; reflexivity.
  - eexists; eexists. split; [vm_compute; reflexivity|]. split; [vm_compute; reflexivity|].
    split; [repeat split; reflexivity|]. split; [reflexivity|]. split; [reflexivity|].
    intros [|[|i]] [|[|j]] Hi Hj; try lia; reflexivity.
Qed.
Print Assumptions C15_row_major_source_refuted.

(** A count that is too small (a stale cached number of significant elements,
    see Check_Props.v) makes the conversion write outside its arrays. *)
Theorem C15_stale_count_refuted :
  s_of_dense_nnz (fun x => x) demoC_chk ColMajor 2 demoC = UB OOBWrite.
Proof. reflexivity. Qed.

(** Conversion between sparse formats keeps the matrix: always within one
    orientation, and from column-major to row-major if there is a row. *)
Theorem C15_sparse_to_sparse :
  forall (T U : Type) (cv : T -> U) (s : sparse T) r c f, sp_mat s r c f ->
    (exists t, s_conv cv (s_o s) s = Ok t /\ s_o t = s_o s /\
       sp_mat t r c (fun i j => option_map cv (f i j))) /\
    (s_o s = ColMajor -> 1 <= r ->
     exists t, s_conv cv RowMajor s = Ok t /\ s_o t = RowMajor /\
       sp_mat t r c (fun i j => option_map cv (f i j))).
Proof.
  intros T U cv s r c f HM. split; [now apply s_conv_same|]. intros; now apply s_conv_to_row.
Qed.
Print Assumptions C15_sparse_to_sparse.

(** Witnesses: [[1 0 2] [0 3 0]] column-major, and the row-major matrix [[1 2 3]]. *)
Definition demoS : sparse Z :=
  mkSparse ColMajor 2 3 6 (map Some [1; 3; 2]%Z) (map Some [0; 1; 0]) (map Some [0; 1; 2; 3]).
Definition demoS_f (i j : nat) : option Z :=
  match i, j with 0, 0 => Some 1%Z | 1, 1 => Some 3%Z | 0, 2 => Some 2%Z | _, _ => None end.
Lemma demoS_mat : sp_mat demoS 2 3 demoS_f.
Proof.
  apply sp_mat_lines. repeat split.
  exists [[(0, 1%Z)]; [(1, 3%Z)]; [(0, 2%Z)]]. split; [|split; [reflexivity|split]].
  - split; [reflexivity|]. exists [], []. repeat split.
  - repeat constructor.
  - intros [|[|i]] [|[|[|j]]] Hi Hj; cbn in Hi, Hj; try lia; reflexivity.
Qed.
Definition demoSR : sparse Z :=
  mkSparse RowMajor 1 3 3 (map Some [1; 2; 3]%Z) (map Some [0; 1; 2]) (map Some [0; 3]).
Lemma demoSR_mat : sp_mat demoSR 1 3 (fun _ j => Some (Z.of_nat (S j))).
Proof.
  apply sp_mat_lines. repeat split.
  exists [[(0, 1%Z); (1, 2%Z); (2, 3%Z)]]. split; [|split; [reflexivity|split]].
  - split; [reflexivity|]. exists [], []. repeat split.
  - repeat constructor.
  - intros [|i] [|[|[|j]]] Hi Hj; cbn in Hi, Hj; try lia; reflexivity.
Qed.
Example C15_sparse_nonvacuous : exists t, s_conv (fun x => x) RowMajor demoS = Ok t /\
  s_off t = map Some [0; 2; 3] /\ s_key t = map Some [0; 2; 1].
Proof. eexists; vm_compute; auto. Qed.

(** Row-major to column-major of a non-square matrix writes outside its arrays
    (the transposed matrix gets one offset per row instead of per column). *)
Theorem C15_row_to_column_sparse_refuted :
  sp_mat demoSR 1 3 (fun _ j => Some (Z.of_nat (S j))) /\
  exists u, s_conv (fun x => x) ColMajor demoSR = UB u.
Proof. split; [exact demoSR_mat|]. eexists; vm_compute; reflexivity. Qed.
Print Assumptions C15_row_to_column_sparse_refuted.

(** ** C18 *)
Theorem C18_sparse_transpose :
  forall (T : Type) (m : sparse T) r c f,
    sp_mat m r c f -> s_o m = ColMajor -> 1 <= r ->
    exists t, s_transpose m = Ok t /\ s_o t = ColMajor /\ sp_mat t c r (fun i j => f j i) /\
      (s_nnz m <> 0 -> s_nnz t = s_nnz m) /\
      (1 <= c -> exists u, s_transpose t = Ok u /\ sp_mat u r c f).
Proof.
  intros T m r c f HM HO Hr. destruct (s_transpose_spec m r c f HM HO Hr) as (t & E & Ot & Mt & N).
  exists t. split; [exact E|]. split; [exact Ot|]. split; [exact Mt|]. split; [exact N|].
  intros Hc. destruct (s_transpose_spec t c r _ Mt Ot Hc) as (u & Eu & Ou & Mu & _). eauto.
Qed.
Print Assumptions C18_sparse_transpose.

Example C18_nonvacuous : sp_mat demoS 2 3 demoS_f /\ exists t, s_transpose demoS = Ok t /\
  s_rows t = 3 /\ s_cols t = 2 /\ s_off t = map Some [0; 2; 3] /\ s_val t = map Some [1; 2; 3]%Z.
Proof. split; [exact demoS_mat|]. eexists; vm_compute; auto. Qed.

(** A matrix without rows: the accumulation loop starts behind the end of the
    offset array. *)
Definition demoS0 : sparse Z := mkSparse ColMajor 0 2 0 [] [] (map Some [0; 0; 0]).
Theorem C18_no_rows_refuted :
  sp_mat demoS0 0 2 (fun _ _ => None) /\ s_transpose demoS0 = UB OOBRead.
Proof.
  split; [|reflexivity]. apply sp_mat_lines. repeat split.
  exists [[]; []]. split; [|split; [reflexivity|split]].
  - split; [reflexivity|]. exists [], []. repeat split.
  - repeat constructor.
  - intros i j Hi; cbn in Hi; lia.
Qed.
Print Assumptions C18_no_rows_refuted.

(** A row-major sparse matrix that is not square is transposed with one offset
    per row of the original instead of one per column. *)
Theorem C18_row_major_refuted :
  sp_mat demoSR 1 3 (fun _ j => Some (Z.of_nat (S j))) /\ exists u, s_transpose demoSR = UB u.
Proof. split; [exact demoSR_mat|]. eexists; vm_compute; reflexivity. Qed.
Print Assumptions C18_row_major_refuted.

(** ** C19.  [op] stands for plus or minus with any operand and result types.
    The library's operators require equal orientations. *)
Theorem C19_dense_plus_minus :
  forall (A B C : Type) (op : A -> B -> C) dbg (a : dense A) (b : dense B) r c fa fb,
    is_mat a r c fa -> is_mat b r c fb -> d_orient a = d_orient b ->
    exists d, d_binop op dbg (d_orient a) a b = Ok d /\
      is_mat d r c (fun i j => op (fa i j) (fb i j)) /\
      d_orient d = d_orient a /\ full_ok d /\ d_own d = true.
Proof. intros; now apply d_binop_spec. Qed.
Print Assumptions C19_dense_plus_minus.

(** Unequal dimensions trip the debug check. *)
Theorem C19_dimension_check :
  forall (A B C : Type) (op : A -> B -> C) o (a : dense A) (b : dense B),
    (d_rows a, d_cols a) <> (d_rows b, d_cols b) -> d_binop op true o a b = AssertFail.
Proof.
  intros A B C op o a b H. unfold d_binop, cassert.
  destruct (Nat.eqb_spec (d_rows a) (d_rows b)); [|reflexivity].
  destruct (Nat.eqb_spec (d_cols a) (d_cols b)); [|reflexivity]. congruence.
Qed.

(** Compound assignment: matrices, and windows of a matrix (only the window's
    region of the parent changes). *)
Theorem C19_dense_compound :
  forall (A B : Type) (op : A -> B -> A) (b : dense B) r c fb,
    is_mat b r c fb ->
    (forall (a : dense A) fa, is_mat a r c fa -> d_orient a = d_orient b ->
       exists m, d_assign_op op a b = Ok (with_buf a m) /\
         is_mat (with_buf a m) r c (fun i j => op (fa i j) (fb i j))) /\
    (forall (p : dense A) R C f br bc,
       is_mat p R C f -> inside p r c br bc -> 1 <= r -> 1 <= c ->
       (Z.of_nat (length (d_buf p)) < 2 ^ 63)%Z -> d_orient b = ColMajor ->
       exists m, d_assign_op op (d_window p r c br bc) b = Ok (with_buf (d_window p r c br bc) m) /\
         is_mat (with_buf p m) R C
           (fun i j => if (br <=? i) && (i <? br + r) && (bc <=? j) && (j <? bc + c)
                       then op (f i j) (fb (i - br) (j - bc)) else f i j)).
Proof.
  intros A B op b r c fb Hb. split.
  - intros a fa Ha Ho.
    destruct (d_assign_spec op a b r c fa fb (proj2 Ha) (wf_sh_ok a (proj1 Ha)) (or_introl (proj1 Ha)) (proj2 Hb)
      (or_introl (proj1 Hb)) Ho) as (m & E & L & H & _).
    exists m. split; [exact E|]. eapply mat_lift; eauto.
  - intros p R C f br bc Hp Hin H1 H2 H3 Ho.
    pose proof Hin as (_ & Op & _).
    destruct (d_assign_spec op (d_window p r c br bc) b r c (fun i j => f (br + i) (bc + j)) fb
      (window_view p R C f r c br bc Hp Hin) (wf_window_ok p r c br bc Hin) (window_iterable p r c br bc Hin H1 H2 H3)
      (proj2 Hb) (or_introl (proj1 Hb))) as (m & E & L & H & Hfr).
    { unfold d_orient, d_window in *; simpl. congruence. }
    exists m. split; [exact E|].
    pose proof (window_lift p R C f r c br bc m _ Hp Hin L H Hfr) as HW.
    eapply is_mat_ext; [exact HW|]. intros i j _ _. cbv beta.
    destruct ((br <=? i) && (i <? br + r) && (bc <=? j) && (j <? bc + c)) eqn:E2; auto.
    rewrite !andb_true_iff, !Nat.leb_le, !Nat.ltb_lt in E2. f_equal. f_equal; lia.
Qed.
Print Assumptions C19_dense_compound.

(** [a op= a]: both operands are one object. *)
Theorem C19_dense_compound_self :
  forall (A : Type) (op : A -> A -> A) (a : dense A) r c fa, is_mat a r c fa ->
    exists m, d_assign_op_shared op a a = Ok m /\
      is_mat (with_buf a m) r c (fun i j => op (fa i j) (fa i j)).
Proof.
  intros A op a r c fa Ha.
  destruct (d_assign_self op a r c fa (proj2 Ha) (wf_sh_ok a (proj1 Ha)) (or_introl (proj1 Ha))) as (m & E & L & H & _).
  exists m. split; [exact E|]. eapply mat_lift; eauto.
Qed.
Print Assumptions C19_dense_compound_self.

Example C19_nonvacuous : is_mat demoC 2 3 demoC_f /\
  (exists d, d_binop Z.sub true ColMajor demoC demoC = Ok d /\ d_buf d = repeat (Some 0%Z) 6) /\
  exists m, d_assign_op_shared Z.add demoC demoC = Ok m /\ m = map Some [2; 8; 4; 10; 6; 12]%Z.
Proof. split; [exact demoC_mat|]. split; eexists; vm_compute; auto. Qed.

(** The functor instantiated for different orientations combines unrelated
    elements: row-major [[1 2] [3 4]] minus the same matrix column-major. *)
Theorem C19_mixed_orientation_refuted :
  exists b d, is_mat demoRsq 2 2 (fun i j => Z.of_nat (2 * i + j + 1)) /\
    is_mat b 2 2 (fun i j => Z.of_nat (2 * i + j + 1)) /\ d_orient b = ColMajor /\
    d_binop Z.sub true RowMajor demoRsq b = Ok d /\ dget true d 0 1 = Ok (-1)%Z.
Proof.
  exists (mkDense (own_shape ColMajor 2 2) 4 (map Some [1; 3; 2; 4]%Z) true). eexists.
  split; [|split; [|split; [reflexivity|split; [vm_compute; reflexivity|reflexivity]]]].
  all: split; [repeat split; reflexivity|]; split; [reflexivity|]; split; [reflexivity|];
    intros [|[|i]] [|[|j]] Hi Hj; try lia; reflexivity.
Qed.
Print Assumptions C19_mixed_orientation_refuted.

(** ** C20.  Sum and difference of column-major sparse matrices: well-formed,
    and at each place the sum / difference, the element of A alone, plus / minus
    the element of B alone, or nothing. *)
Definition sum_at {T} `{Scalar T} (x y : option T) : option T :=
  match x, y with
  | Some x, Some y => Some (sadd x y) | Some x, None => Some x | None, Some y => Some y | None, None => None
  end.
Definition diff_at {T} `{Scalar T} (x y : option T) : option T :=
  match x, y with
  | Some x, Some y => Some (ssub x y) | Some x, None => Some x | None, Some y => Some (sopp y) | None, None => None
  end.

Theorem C20_sparse_plus_minus :
  forall (T : Type) (S : Scalar T) dbg (a b : sparse T) r c fa fb,
    sp_mat a r c fa -> sp_mat b r c fb -> s_o a = ColMajor -> s_o b = ColMajor ->
    (exists s, s_binop (fun x => x) (fun y => y) sadd dbg a b = Ok s /\ s_o s = ColMajor /\
       sp_mat s r c (fun i j => sum_at (fa i j) (fb i j))) /\
    (exists s, s_binop (fun x => x) sopp ssub dbg a b = Ok s /\ s_o s = ColMajor /\
       sp_mat s r c (fun i j => diff_at (fa i j) (fb i j))).
Proof.
  intros T S dbg a b r c fa fb Ha Hb Oa Ob. split.
  - destruct (s_binop_spec (fun x => x) (fun y => y) sadd dbg a b r c fa fb Ha Hb Oa Ob) as (s & E & O & M).
    exists s. split; [exact E|]. split; [exact O|]. exact M.
  - destruct (s_binop_spec (fun x => x) sopp ssub dbg a b r c fa fb Ha Hb Oa Ob) as (s & E & O & M).
    exists s. split; [exact E|]. split; [exact O|]. exact M.
Qed.
Print Assumptions C20_sparse_plus_minus.

(** With the ring laws the stored values are the elementwise sum / difference of
    the represented matrices (absent = 0). *)
Theorem C20_represents_sum_difference :
  forall (T : Type) (S : Scalar T) (L : RingLaws T) (x y : option T),
    dflt s0 (sum_at x y) = sadd (dflt s0 x) (dflt s0 y) /\
    dflt s0 (diff_at x y) = ssub (dflt s0 x) (dflt s0 y).
Proof.
  assert (H0 : forall T (S : Scalar T) (L : RingLaws T) (a : T), sadd a s0 = a)
    by (intros; rewrite r_addC; apply r_add0l).
  intros T S L.
  assert (Hn : sopp (s0 : T) = s0) by (rewrite <- (r_add0l (sopp s0)); apply r_oppr).
  intros [x|] [y|]; cbn [dflt sum_at diff_at]; split; try reflexivity; rewrite ?r_sub, ?Hn, ?H0, ?r_add0l; try reflexivity.
  all: exact L.
Qed.
Print Assumptions C20_represents_sum_difference.

Definition demoS2 : sparse Z :=
  mkSparse ColMajor 2 3 6 (map Some [10; 20; 30]%Z) (map Some [0; 1; 1]) (map Some [0; 2; 3; 3]).
Definition demoS2_f (i j : nat) : option Z :=
  match i, j with 0, 0 => Some 10%Z | 1, 0 => Some 20%Z | 1, 1 => Some 30%Z | _, _ => None end.
Lemma demoS2_mat : sp_mat demoS2 2 3 demoS2_f.
Proof.
  apply sp_mat_lines. repeat split.
  exists [[(0, 10%Z); (1, 20%Z)]; [(1, 30%Z)]; []]. split; [|split; [reflexivity|split]].
  - split; [reflexivity|]. exists [], []. repeat split.
  - repeat constructor.
  - intros [|[|i]] [|[|[|j]]] Hi Hj; cbn in Hi, Hj; try lia; reflexivity.
Qed.
Example C20_nonvacuous : sp_mat demoS 2 3 demoS_f /\ sp_mat demoS2 2 3 demoS2_f /\
  exists s e, s_binop (fun x => x) Z.opp Z.sub true demoS demoS2 = Ok s /\
    d_of_sparse (fun x => x) 0%Z ColMajor s = Ok e /\ d_buf e = map Some [-9; -20; 0; -27; 2; 0]%Z.
Proof.
  split; [exact demoS_mat|]. split; [exact demoS2_mat|]. eexists; eexists. vm_compute; auto.
Qed.

(** ** C21.  Dense and sparse mixed. *)
Definition plus_at {T} `{Scalar T} (x : T) (y : option T) : T :=
  match y with Some y => sadd x y | None => x end.
Definition minus_at {T} `{Scalar T} (x : T) (y : option T) : T :=
  match y with Some y => ssub x y | None => x end.

(** Dense + Sparse, Sparse + Dense (equal by commutativity; at places without
    stored element simply the dense element) and Dense - Sparse. *)
Theorem C21_mixed_plus_minus :
  forall (T : Type) (S : Scalar T) dbg (a : dense T) (b : sparse T) r c fa fb,
    is_mat a r c fa -> sp_mat b r c fb -> d_orient a = ColMajor -> s_o b = ColMajor ->
    (exists d, ds_binop (fun x => x) sadd dbg a b = Ok d /\
       is_mat d r c (fun i j => plus_at (fa i j) (fb i j)) /\ full_ok d /\ d_orient d = ColMajor) /\
    (exists d, sd_binop (fun x => x) sadd dbg b a = Ok d /\
       is_mat d r c (fun i j => plus_at (fa i j) (fb i j)) /\ full_ok d /\ d_orient d = ColMajor) /\
    (exists d, ds_binop (fun x => x) ssub dbg a b = Ok d /\
       is_mat d r c (fun i j => minus_at (fa i j) (fb i j)) /\ full_ok d /\ d_orient d = ColMajor).
Proof.
  intros T S dbg a b r c fa fb Ha Hb Oa Ob.
  destruct (ds_binop_spec (fun x => x) sadd dbg a b r c fa fb Ha Hb Oa Ob) as (d1 & E1 & M1 & O1 & F1 & _).
  destruct (ds_binop_spec (fun x => x) ssub dbg a b r c fa fb Ha Hb Oa Ob) as (d2 & E2 & M2 & O2 & F2 & _).
  split; [exists d1; unfold plus_at; auto|]. split; [exists d1; unfold plus_at; auto|].
  exists d2; unfold minus_at; auto.
Qed.
Print Assumptions C21_mixed_plus_minus.

(** Dense += Sparse, Dense -= Sparse, on matrices of both orientations and on
    windows (only the window's region of the parent changes). *)
Theorem C21_mixed_compound :
  forall (A B : Type) (op : A -> B -> A) dbg (b : sparse B) r c fb,
    sp_mat b r c fb -> s_o b = ColMajor ->
    (forall (a : dense A) fa, is_mat a r c fa ->
       exists m, ds_assign_op op dbg a b = Ok (with_buf a m) /\
         is_mat (with_buf a m) r c
           (fun i j => match fb i j with Some y => op (fa i j) y | None => fa i j end)) /\
    (forall (p : dense A) R C f br bc, is_mat p R C f -> inside p r c br bc ->
       exists m, ds_assign_op op dbg (d_window p r c br bc) b = Ok (with_buf (d_window p r c br bc) m) /\
         is_mat (with_buf p m) R C
           (fun i j => if (br <=? i) && (i <? br + r) && (bc <=? j) && (j <? bc + c)
                       then match fb (i - br) (j - bc) with Some y => op (f i j) y | None => f i j end
                       else f i j)).
Proof.
  intros A B op dbg b r c fb Hb Ob. split.
  - intros a fa Ha.
    destruct (ds_assign_spec op dbg a b r c fa fb (proj2 Ha) (wf_sh_ok a (proj1 Ha)) Hb Ob) as (m & E & L & H & _).
    exists m. split; [exact E|]. eapply mat_lift; eauto.
  - intros p R C f br bc Hp Hin.
    destruct (ds_assign_spec op dbg (d_window p r c br bc) b r c (fun i j => f (br + i) (bc + j)) fb
      (window_view p R C f r c br bc Hp Hin) (wf_window_ok p r c br bc Hin) Hb Ob) as (m & E & L & H & Hfr).
    exists m. split; [exact E|].
    pose proof (window_lift p R C f r c br bc m _ Hp Hin L H Hfr) as HW.
    eapply is_mat_ext; [exact HW|]. intros i j _ _. cbv beta.
    destruct ((br <=? i) && (i <? br + r) && (bc <=? j) && (j <? bc + c)) eqn:E2; auto.
    rewrite !andb_true_iff, !Nat.leb_le, !Nat.ltb_lt in E2.
    replace (br + (i - br)) with i by lia. replace (bc + (j - bc)) with j by lia. reflexivity.
Qed.
Print Assumptions C21_mixed_compound.

(** Sparse op= Sparse and Sparse op= Dense are not supported and say so. *)
Theorem C21_unsupported_compound_throws :
  forall (A B : Type) (a : sparse A) (b : sparse B) (d : dense B),
    ss_assign_op a b = Throw /\ sd_assign_op a d = Throw.
Proof. split; reflexivity. Qed.

Example C21_nonvacuous : is_mat demoC 2 3 demoC_f /\ sp_mat demoS 2 3 demoS_f /\
  exists d, ds_binop (fun x => x) Z.sub true demoC demoS = Ok d /\ d_buf d = map Some [0; 4; 2; 2; 1; 6]%Z.
Proof. split; [exact demoC_mat|]. split; [exact demoS_mat|]. eexists. vm_compute; auto. Qed.

(** Sparse - Dense computes Dense - Sparse: element (0,0) of demoS - demoC is
    1 - 1 = 0, element (1,0) should be 0 - 4 = -4 but is 4. *)
Theorem C21_sparse_minus_dense_refuted :
  sp_mat demoS 2 3 demoS_f /\ is_mat demoC 2 3 demoC_f /\
  exists d, sd_binop (fun x => x) Z.sub true demoS demoC = Ok d /\
    dget true d 1 0 = Ok 4%Z /\ (dflt 0 (demoS_f 1 0) - demoC_f 1 0)%Z = (-4)%Z.
Proof. split; [exact demoS_mat|]. split; [exact demoC_mat|]. eexists. vm_compute; auto. Qed.
Print Assumptions C21_sparse_minus_dense_refuted.

(** A row-major dense left operand of the functor is addressed as column-major. *)
Theorem C21_row_major_dense_refuted :
  exists b d, sp_mat b 2 2 (fun i j => if (i =? 0) && (j =? 1) then Some 10%Z else None) /\
    is_mat demoRsq 2 2 (fun i j => Z.of_nat (2 * i + j + 1)) /\
    ds_binop (fun x => x) Z.add true demoRsq b = Ok d /\ dget true d 0 1 = Ok 2%Z /\ dget true d 1 0 = Ok 13%Z.
Proof.
  exists (mkSparse ColMajor 2 2 4 [Some 10%Z] [Some 0] (map Some [0; 0; 1])). eexists. split; [|split].
  - apply sp_mat_lines. repeat split. exists [[]; [(0, 10%Z)]]. split; [|split; [reflexivity|split]].
    + split; [reflexivity|]. exists [], []. repeat split.
    + repeat constructor.
    + intros [|[|i]] [|[|j]] Hi Hj; cbn in Hi, Hj; try lia; reflexivity.
  - split; [repeat split; reflexivity|]. split; [reflexivity|]. split; [reflexivity|].
    intros [|[|i]] [|[|j]] Hi Hj; try lia; reflexivity.
  - vm_compute. auto.
Qed.
Print Assumptions C21_row_major_dense_refuted.

(** ** C22.  The zero matrix, against matrices of every kind [M]. *)
Theorem C22_zero_neutral :
  forall (M : Type) (rows cols : M -> nat) (m : M) (z : zmat) dbg,
    mz_binop m z = m /\ zm_binop z m = m /\
    (rows m = z_rows z -> cols m = z_cols z -> mz_assign_op dbg rows cols m z = Ok m) /\
    (~ (rows m = z_rows z /\ cols m = z_cols z) -> mz_assign_op true rows cols m z = AssertFail) /\
    zm_assign_op z m = Throw.
Proof.
  intros M rows cols m z dbg. unfold mz_assign_op, cassert. repeat split.
  - intros -> ->. now rewrite !Nat.eqb_refl, !andb_false_r.
  - intros H. destruct (Nat.eqb_spec (rows m) (z_rows z)); [|reflexivity].
    destruct (Nat.eqb_spec (cols m) (z_cols z)); [|reflexivity]. tauto.
Qed.
Print Assumptions C22_zero_neutral.

(** 0 - M is M, not -M. *)
Theorem C22_zero_minus_refuted :
  is_mat demoC 2 3 demoC_f /\ dget true (zm_binop (z_new 2 3) demoC) 0 0 = Ok 1%Z /\ (0 - demoC_f 0 0)%Z = (-1)%Z.
Proof. split; [exact demoC_mat|]. split; reflexivity. Qed.
Print Assumptions C22_zero_minus_refuted.
