(** C05-C14, C17: dense matrices, windows, cursors, fillers, conversions.
    Vocabulary: Dense_Spec.v ([view], [is_mat], [inside], [legal], [cell]). *)
From Verif Require Import Base Dense_Model Dense_Spec Dense_Proofs Striped_Proofs Dense2_Proofs Dense3_Proofs.

(** A 2 x 3 column-major and a 3 x 2 row-major matrix used as witnesses. *)
Definition demoC : dense Z :=
  mkDense (own_shape ColMajor 2 3) 6 (map Some [1; 4; 2; 5; 3; 6]%Z) true.
Definition demoR : dense Z :=
  mkDense (own_shape RowMajor 3 2) 6 (map Some [1; 2; 3; 4; 5; 6]%Z) true.
Definition demoC_f (i j : nat) : Z := (Z.of_nat i * 3 + Z.of_nat j + 1)%Z.

Lemma demoC_mat : is_mat demoC 2 3 demoC_f.
Proof.
  split; [repeat split; reflexivity|]. split; [reflexivity|]. split; [reflexivity|].
  intros [|[|i]] [|[|[|j]]] Hi Hj; try lia; reflexivity.
Qed.

(** C05.  Every index pair of a matrix or window designates a cell of the
    memory, different pairs different cells; a bad index trips the assert. *)
Theorem C05_cell_in_bounds_and_unique :
  forall (T : Type) (d : dense T), legal d ->
    (forall dbg i j, i < d_rows d -> j < d_cols d ->
       exists a, cell dbg d i j = Ok a /\ a < length (d_buf d)) /\
    (forall dbg i j i' j' a,
       i < d_rows d -> j < d_cols d -> i' < d_rows d -> j' < d_cols d ->
       cell dbg d i j = Ok a -> cell dbg d i' j' = Ok a -> i = i' /\ j = j') /\
    (forall i j, ~ (i < d_rows d /\ j < d_cols d) -> cell true d i j = AssertFail).
Proof. exact @cell_spec. Qed.
Print Assumptions C05_cell_in_bounds_and_unique.

Example C05_nonvacuous : legal (d_window demoC 2 2 0 1) /\ d_rows (d_window demoC 2 2 0 1) = 2.
Proof. split; [|reflexivity]. apply legal_win. repeat split; cbn; lia. Qed.

(** C06.  A write changes one element of the matrix and nothing else in its memory. *)
Theorem C06_write_changes_one_element :
  forall (T : Type) (d : dense T) dbg i j v, legal d -> i < d_rows d -> j < d_cols d ->
    exists d', dset dbg d i j v = Ok d' /\
      d_rows d' = d_rows d /\ d_cols d' = d_cols d /\ d_getSize d' = d_getSize d /\
      (forall dbg', dget dbg' d' i j = Ok v) /\
      (forall dbg' i' j', i' < d_rows d -> j' < d_cols d -> (i', j') <> (i, j) ->
         dget dbg' d' i' j' = dget dbg' d i' j') /\
      (forall a, cell dbg d i j <> Ok a -> nth_error (d_buf d') a = nth_error (d_buf d) a).
Proof. exact @dset_frame. Qed.
Print Assumptions C06_write_changes_one_element.

Example C06_nonvacuous : exists d', dset true demoC 1 2 9%Z = Ok d' /\ dget true d' 1 2 = Ok 9%Z /\
  dget true d' 0 2 = Ok 3%Z.
Proof. eexists; vm_compute; auto. Qed.

(** C08.  An inner cursor over row [i] / column [j] visits exactly that row's /
    column's cells, once each, in order, for all direction pairs of the library
    (Row/Column and their orientation-relative aliases Major/Minor). *)
Definition row_direction (o : orient) (d : dir) : Prop :=
  d = DRow \/ (o = RowMajor /\ d = DMinor) \/ (o = ColMajor /\ d = DMajor).
Definition col_direction (o : orient) (d : dir) : Prop :=
  d = DCol \/ (o = RowMajor /\ d = DMajor) \/ (o = ColMajor /\ d = DMinor).

Theorem C08_cursors_visit_rows_and_columns :
  forall (T : Type) (d : dense T) d1 d2, legal d ->
    (row_direction (d_orient d) d1 -> col_direction (d_orient d) d2 ->
     forall dbg i, i < d_rows d -> exists ads, cur_addrs (d_sh d) d1 d2 i = Ok ads /\
       length ads = d_cols d /\ NoDup ads /\
       forall j, j < d_cols d -> exists a, nth_error ads j = Some a /\ cell dbg d i j = Ok a /\
                                           a < length (d_buf d)) /\
    (col_direction (d_orient d) d1 -> row_direction (d_orient d) d2 ->
     forall dbg j, j < d_cols d -> exists ads, cur_addrs (d_sh d) d1 d2 j = Ok ads /\
       length ads = d_rows d /\ NoDup ads /\
       forall i, i < d_rows d -> exists a, nth_error ads i = Some a /\ cell dbg d i j = Ok a /\
                                           a < length (d_buf d)).
Proof. exact @cursor_spec. Qed.
Print Assumptions C08_cursors_visit_rows_and_columns.

Example C08_nonvacuous : cur_addrs (d_sh demoC) DRow DCol 1 = Ok [1; 3; 5] /\
  cur_addrs (d_sh (d_window demoC 2 2 0 1)) DMinor DMajor 1 = Ok [4; 5] /\
  cur_addrs (d_sh demoR) DCol DRow 1 = Ok [1; 3; 5].
Proof. repeat split. Qed.

(** C09.  A window reads its region of the parent; writing, filling or copying
    into the window changes exactly that region of the parent. *)
Theorem C09_window_aliases_region :
  forall (T : Type) (p : dense T) r c f nr nc br bc,
    is_mat p r c f -> inside p nr nc br bc ->
    let w := d_window p nr nc br bc in
    view w nr nc (fun i j => f (br + i) (bc + j)) /\
    (forall dbg i j v, i < nr -> j < nc ->
       exists m, dset dbg w i j v = Ok (with_buf w m) /\
         is_mat (with_buf p m) r c
           (fun i' j' => if (i' =? br + i) && (j' =? bc + j) then v else f i' j')) /\
    (forall src g, is_mat src nr nc g ->
       exists m, d_copy (fun x => x) src w = Ok (with_buf w m) /\
         is_mat (with_buf p m) r c
           (fun i j => if (br <=? i) && (i <? br + nr) && (bc <=? j) && (j <? bc + nc)
                       then g (i - br) (j - bc) else f i j)) /\
    (1 <= nr -> 1 <= nc -> (Z.of_nat (length (d_buf p)) < 2 ^ 63)%Z ->
       forall v, exists m, all_filler v w = Ok (with_buf w m) /\
         is_mat (with_buf p m) r c
           (fun i j => if (br <=? i) && (i <? br + nr) && (bc <=? j) && (j <? bc + nc)
                       then v else f i j)).
Proof. exact @window_alias. Qed.
Print Assumptions C09_window_aliases_region.

Example C09_nonvacuous : inside demoC 2 2 0 1 /\ is_mat demoC 2 3 demoC_f /\
  dget true (d_window demoC 2 2 0 1) 1 0 = Ok 5%Z.
Proof. split; [repeat split; cbn; lia|]. split; [exact demoC_mat|reflexivity]. Qed.

(** A window of a window uses its parent's row count instead of the leading
    dimension and therefore shows other elements than the region it names. *)
Theorem C09_window_of_window_refuted :
  exists (p : dense Z) r c f w, is_mat p r c f /\
    w = d_window p 1 3 1 0 /\ inside p 1 3 1 0 /\
    view w 1 3 (fun i j => f (1 + i) j) /\
    dget true (d_window w 1 2 0 1) 0 0 <> dget true w 0 1.
Proof.
  exists demoC, 2, 3, demoC_f, (d_window demoC 1 3 1 0).
  split; [exact demoC_mat|]. split; [reflexivity|]. split; [repeat split; cbn; lia|]. split.
  - apply (window_view demoC 2 3 demoC_f 1 3 1 0 demoC_mat). repeat split; cbn; lia.
  - vm_compute. discriminate.
Qed.
Print Assumptions C09_window_of_window_refuted.

(** C10.  Non-empty striped ranges: forward order, reverse order, and ++ / --
    are inverse on the elements. *)
Theorem C10_striped_iterator :
  forall data cs nb sep,
    1 <= cs -> 1 <= nb -> (Z.of_nat cs * Z.of_nat nb + (Z.of_nat nb - 1) * Z.of_nat sep < 2 ^ 63)%Z ->
    let s := mkStriped data (Z.of_nat cs) (Z.of_nat nb) (Z.of_nat sep) in
    let at_ b p := (data + Z.of_nat (b * (cs + sep) + p))%Z in
    sp_addrs s = Ok (flat_map (fun b => map (at_ b) (seq 0 cs)) (seq 0 nb)) /\
    sp_raddrs s = Ok (rev (flat_map (fun b => map (at_ b) (seq 0 cs)) (seq 0 nb))) /\
    (forall b p, b < nb -> p < cs ->
       let it := mkSiter (at_ b p) (Z.of_nat p) (Z.of_nat b) in
       si_dec s (si_inc s it) = it \/ (b = nb - 1 /\ p = cs - 1)).
Proof. exact striped_spec. Qed.
Print Assumptions C10_striped_iterator.

Example C10_nonvacuous : sp_addrs (mkStriped 7 2 3 4) = Ok [7; 8; 13; 14; 19; 20]%Z /\
  sp_raddrs (mkStriped 7 2 3 4) = Ok [20; 19; 14; 13; 8; 7]%Z.
Proof. split; reflexivity. Qed.

(** Empty ranges: with block length 0 and two or more blocks the iterator walks
    over the separators, i.e. over elements that do not belong to the range. *)
Theorem C10_empty_blocks_refuted :
  exists s l, sp_cs s = 0%Z /\ sp_addrs s = Ok l /\ l <> [].
Proof. exists (mkStriped 7 0 2 3), [7; 8; 9]%Z. split; [reflexivity|]. split; [reflexivity|discriminate]. Qed.
Print Assumptions C10_empty_blocks_refuted.

(** C11.  A rectangular nested list. *)
Theorem C11_nested_list :
  forall (T : Type) o (values : list (list T)) r c f,
    length values = r -> 1 <= r ->
    (forall i, i < r -> exists row, nth_error values i = Some row /\ length row = c /\
       forall j, j < c -> nth_error row j = Some (f i j)) ->
    exists d, d_init_list o values = Ok d /\ is_mat d r c f /\ d_orient d = o /\
              full_ok d /\ d_own d = true.
Proof. exact @init_list_spec. Qed.
Print Assumptions C11_nested_list.

Example C11_nonvacuous : exists d, d_init_list RowMajor [[1; 2; 3]; [4; 5; 6]]%Z = Ok d /\
  dget true d 1 0 = Ok 4%Z /\ d_rows d = 2 /\ d_cols d = 3.
Proof. eexists; vm_compute; auto. Qed.

(** Ragged lists are not detected: a short row is read past its end, the excess
    of a long row is dropped. *)
Theorem C11_ragged_list_refuted :
  (forall T o (a b : T), d_init_list o [[a; b]; [a]] = UB OOBRead) /\
  exists d, d_init_list ColMajor [[1]; [2; 3]]%Z = Ok d /\ d_cols d = 1.
Proof. split; [intros T [|] a b; reflexivity|]. eexists; vm_compute; auto. Qed.
Print Assumptions C11_ragged_list_refuted.

(** C12.  Fillers.  [cnt k] = ((1+1)+...)+1 with [k] additions; [lin] is the
    position in storage order. *)
Theorem C12_fillers :
  forall (T : Type) (S : Scalar T) o r c,
    (forall v, exists d, all_filler v (@d_new T o r c) = Ok d /\ is_mat d r c (fun _ _ => v)) /\
    (exists d, continuous_filler (@d_new T o r c) = Ok d /\
       is_mat d r c (fun i j => cnt (match o with RowMajor => i * c + j | ColMajor => j * r + i end))) /\
    (forall sdiv, exists d, hilbert_filler sdiv (@d_new T o r c) = Ok d /\
       is_mat d r c (fun i j => sdiv s1 (ssub (sadd (cnt i) (cnt j)) s1))) /\
    (forall dbg v, r = c -> exists d, diagonal_filler dbg v (@d_new T o r c) = Ok d /\
       is_mat d r c (fun i j => if i =? j then v else s0)) /\
    (forall dbg v, r <> c -> diagonal_filler dbg v (@d_new T o r c) = Throw).
Proof. exact @fillers_spec. Qed.
Print Assumptions C12_fillers.

Example C12_nonvacuous : exists d, continuous_filler (@d_new Z RowMajor 2 3) = Ok d /\
  d_buf d = map Some [1; 2; 3; 4; 5; 6]%Z.
Proof. eexists; vm_compute; auto. Qed.

(** C13.  Dense to dense, both orientations, any element conversion [cv]. *)
Theorem C13_dense_to_dense :
  forall (T U : Type) (cv : T -> U) (d : dense T) r c f, is_mat d r c f ->
    (is_mat (d_conv_same cv d) r c (fun i j => cv (f i j)) /\
     d_orient (d_conv_same cv d) = d_orient d /\ full_ok (d_conv_same cv d)) /\
    (exists d', d_conv_flip cv d = Ok d' /\ is_mat d' r c (fun i j => cv (f i j)) /\
     d_orient d' = flip (d_orient d) /\ full_ok d').
Proof. exact @dense_to_dense. Qed.
Print Assumptions C13_dense_to_dense.

Example C13_nonvacuous : is_mat demoC 2 3 demoC_f /\
  exists d', d_conv_flip (Z.mul 2) demoC = Ok d' /\ dget true d' 1 0 = Ok 8%Z /\ d_orient d' = RowMajor.
Proof. split; [exact demoC_mat|]. eexists; vm_compute; auto. Qed.

(** C14.  Non-empty window to stand-alone matrix with a value checker. *)
Theorem C14_window_to_dense :
  forall (T U : Type) (cv : T -> U) (zero : U) (chk : T -> bool) (p : dense T) r c f nr nc br bc,
    is_mat p r c f -> inside p nr nc br bc -> 1 <= nr -> 1 <= nc ->
    (Z.of_nat (length (d_buf p)) < 2 ^ 63)%Z ->
    exists d, d_conv_window cv zero chk (d_window p nr nc br bc) = Ok d /\
      is_mat d nr nc (fun i j => if chk (f (br + i) (bc + j)) then cv (f (br + i) (bc + j)) else zero) /\
      d_orient d = ColMajor /\ full_ok d.
Proof. exact @window_to_dense. Qed.
Print Assumptions C14_window_to_dense.

Example C14_nonvacuous : inside demoC 2 2 0 1 /\
  exists d, d_conv_window (fun x => x) 0%Z (Z.ltb 2) (d_window demoC 2 2 0 1) = Ok d /\
    d_buf d = map Some [0; 5; 3; 6]%Z.
Proof. split; [repeat split; cbn; lia|]. eexists; vm_compute; auto. Qed.

(** An empty window (no rows, two columns) makes the conversion write outside
    the new matrix. *)
Theorem C14_empty_window_refuted :
  exists (p : dense Z) r c f, is_mat p r c f /\ inside p 0 2 0 0 /\
    d_conv_window (fun x => x) 0%Z (fun _ => true) (d_window p 0 2 0 0) = UB OOBWrite.
Proof.
  exists demoC, 2, 3, demoC_f. split; [exact demoC_mat|]. split; [repeat split; cbn; lia|reflexivity].
Qed.
Print Assumptions C14_empty_window_refuted.

(** C17.  Transposition. *)
Theorem C17_transpose :
  forall (T : Type) (d : dense T) r c f, is_mat d r c f ->
    exists t, transpose_dense d = Ok t /\ is_mat t c r (fun i j => f j i) /\
      d_orient t = d_orient d /\ full_ok t /\
      exists t2, transpose_dense t = Ok t2 /\ is_mat t2 r c f /\ d_buf t2 = d_buf d.
Proof. exact @transpose_twice. Qed.
Print Assumptions C17_transpose.

Example C17_nonvacuous : exists t, transpose_dense demoR = Ok t /\ dget true t 1 2 = Ok 6%Z /\ d_rows t = 2.
Proof. eexists; vm_compute; auto. Qed.

(** C07.  getSize() = rows * columns = number of stored elements for every matrix
    obtained by the operations below, in any composition (copy construction and
    copy assignment yield an equal object, so they need no constructor). *)
Inductive built {T : Type} {S : Scalar T} : dense T -> Prop :=
| b_default o : built (d_default o)
| b_new o r c : built (d_new o r c)
| b_external o r c m : length m = r * c -> built (d_external o r c m)
| b_list o values d : d_init_list o values = Ok d -> built d
| b_conv d cv : built d -> built (d_conv_same cv d)
| b_flip d d' cv : built d -> d_conv_flip cv d = Ok d' -> built d'
| b_win p nr nc br bc cv z chk d :
    built p -> d_conv_window cv z chk (d_window p nr nc br bc) = Ok d -> built d
| b_transpose d t : built d -> transpose_dense d = Ok t -> built t
| b_move d : built d -> built (fst (d_move d))
| b_resize d r c : built d -> snd (d_resize d r c) = false -> built (fst (d_resize d r c))
| b_set d dbg i j v d' : built d -> dset dbg d i j v = Ok d' -> built d'
| b_all d v d' : built d -> all_filler v d = Ok d' -> built d'
| b_cont d d' : built d -> continuous_filler d = Ok d' -> built d'
| b_hilbert d sdiv d' : built d -> hilbert_filler sdiv d = Ok d' -> built d'
| b_diag d dbg v d' : built d -> diagonal_filler dbg v d = Ok d' -> built d'
| b_copyto s d cv d' : built (T:=T) s -> built d -> d_copy cv s d = Ok d' -> built d'.

Theorem C07_getsize :
  forall (T : Type) (S : Scalar T) (d : dense T), built d ->
    d_getSize d = d_rows d * d_cols d /\ length (d_buf d) = d_rows d * d_cols d.
Proof.
  intros T S d H.
  assert (G : sizes_ok d).
  { induction H.
    - apply sizes_default.
    - apply sizes_new.
    - now apply sizes_external.
    - eapply sizes_init_list; eassumption.
    - now apply sizes_conv_same.
    - eapply sizes_conv_flip; eassumption.
    - eapply sizes_conv_window; eassumption.
    - eapply sizes_transpose; eassumption.
    - now apply sizes_move.
    - now apply sizes_resize.
    - eapply sizes_dset; eassumption.
    - eapply sizes_all_filler; eassumption.
    - eapply sizes_continuous; eassumption.
    - eapply sizes_hilbert; eassumption.
    - eapply sizes_diagonal; eassumption.
    - match goal with H : d_copy _ ?s ?d = Ok _ |- _ => eapply (sizes_copy s d); [| |exact H]; assumption end. }
  split; apply G.
Qed.
Print Assumptions C07_getsize.

Example C07_nonvacuous : exists d, transpose_dense (@d_new Z RowMajor 2 3) = Ok d /\ built d.
Proof.
  destruct (transpose_dense (@d_new Z RowMajor 2 3)) as [t| | | |] eqn:E; try (vm_compute in E; discriminate).
  exists t; split; auto. eapply b_transpose; [apply b_new|exact E].
Qed.

(** swap() and a throwing resize() are not among these operations: they break it. *)
Theorem C07_swap_refuted :
  exists a b : dense Z, built a /\ built b /\
    d_getSize (fst (d_swap a b)) <> d_rows (fst (d_swap a b)) * d_cols (fst (d_swap a b)).
Proof.
  exists (d_new ColMajor 1 1), (d_new ColMajor 2 2). split; [apply b_new|]. split; [apply b_new|]. vm_compute; discriminate.
Qed.
Print Assumptions C07_swap_refuted.

(** A resize that throws (external memory, different size) has already changed
    the dimensions; reading inside the reported dimensions leaves the memory. *)
Theorem C07_throwing_resize_refuted :
  exists d : dense Z, built d /\ exists d', d_resize d 3 3 = (d', true) /\
    d_rows d' = 3 /\ d_cols d' = 3 /\ dget true d' 2 2 = UB OOBRead.
Proof.
  exists (d_external ColMajor 1 2 [Some 1%Z; Some 2%Z]). split; [apply b_external; reflexivity|].
  eexists. split; [reflexivity|]. vm_compute; auto.
Qed.
Print Assumptions C07_throwing_resize_refuted.
