(** C46-C50, C56, C57, C59, C60: the tools around the library.  Vocabulary:
    Tools_Spec.v. *)
From Coq Require Import String.
From Verif Require Import Base BaseLemmas Dense_Model Dense_Spec Dense_Proofs Striped_Proofs Dense2_Proofs Sparse_Model Sparse_Spec Mult_Spec
  Dyn_Model Dyn_Spec Dyn_Proofs Dyn2_Proofs Block_Proofs Check_Model Check_Spec Norm_Model Norm_Spec Norm_Proofs IO_Proofs Tools_Model Tools_Spec
  Tools_Proofs Tools2_Proofs Tools3_Proofs Dense_Props Sparse_Props Dyn_Props Norm_Props.

(** ** C46 *)
(** With distinct names and values, every registered name gives its value and
    every registered value its name; hence each look-up undoes the other. *)
Theorem C46_names :
  forall (E : Type) (eqe : E -> E -> bool), (forall a b, eqe a b = true <-> a = b) ->
  forall dbg (l : list (string * E)), all_distinct l ->
  forall s e,
    (ep_parse dbg (ep_build l) s = Ok e <-> In (s, e) l) /\
    (ep_name eqe dbg (ep_build l) e = Ok s <-> In (s, e) l).
Proof.
  intros E eqe He dbg l [N1 N2] s e. split; split; intros H.
  - now apply parse_inv in H.
  - now apply parse_in.
  - now apply (name_inv eqe He) in H.
  - now apply name_in.
Qed.
Print Assumptions C46_names.

Theorem C46_round_trip :
  forall (E : Type) (eqe : E -> E -> bool), (forall a b, eqe a b = true <-> a = b) ->
  forall dbg (l : list (string * E)), all_distinct l ->
  forall s e, ep_parse dbg (ep_build l) s = Ok e <-> ep_name eqe dbg (ep_build l) e = Ok s.
Proof.
  intros E eqe He dbg l N s e. destruct (C46_names E eqe He dbg l N s e) as [H1 H2]. tauto.
Qed.
Print Assumptions C46_round_trip.

(** A name or value that was never registered is caught by an assertion; without
    assertions an invalid iterator is dereferenced. *)
Theorem C46_unregistered :
  forall (E : Type) (eqe : E -> E -> bool), (forall a b, eqe a b = true <-> a = b) ->
  forall dbg (l : list (string * E)),
  (forall s, ~ In s (map fst l) -> ep_parse dbg (ep_build l) s = if dbg then AssertFail else UB OOBRead) /\
  (forall e, ~ In e (map snd l) -> ep_name eqe dbg (ep_build l) e = if dbg then AssertFail else UB OOBRead).
Proof.
  intros E eqe He dbg l. split; intros x H; [now apply parse_out|now apply name_out].
Qed.
Print Assumptions C46_unregistered.

(** Registering a name again overrides it; registering two names for one value
    breaks the round trip of the first one. *)
Theorem C46_last_registration_wins :
  forall (E : Type) dbg (l : list (string * E)) s e, ep_parse dbg (ep_build (l ++ [(s, e)])) s = Ok e.
Proof. intros. apply parse_last. Qed.
Print Assumptions C46_last_registration_wins.
Theorem C46_aliases_refuted :
  ep_parse true (ep_build [("one", 1); ("uno", 1)]%string) "one" = Ok 1 /\
  ep_name Nat.eqb true (ep_build [("one", 1); ("uno", 1)]%string) 1 = Ok "uno"%string.
Proof. split; reflexivity. Qed.

(** The table of tracker names is distinct and complete: every enumerator is
    written and read as its own identifier. *)
Theorem C46_tracker_table :
  all_distinct tracker_map /\
  forall dbg id, id < tracker_size ->
    ep_name Nat.eqb dbg tracker_parser id = Ok (nth id tracker_names EmptyString) /\
    ep_parse dbg tracker_parser (nth id tracker_names EmptyString) = Ok id.
Proof.
  split; [rewrite tracker_map_eq; exact tracker_distinct|]. intros dbg id H. split; [now apply tracker_name_ok|].
  pose proof (tracker_name_ok dbg id H) as N. unfold tracker_parser in *. rewrite tracker_map_eq in *.
  apply (C46_round_trip nat Nat.eqb Nat.eqb_eq dbg _ tracker_distinct). exact N.
Qed.
Print Assumptions C46_tracker_table.

(** Type lists: the position of a member leads back to it, different members have
    different positions, and a non-member has the length of the list. *)
Theorem C46_type_positions :
  forall (t : mty) (l : list mty),
    (In t l <-> get_index t l < length l) /\
    (In t l -> nth_error l (get_index t l) = Some t) /\
    (~ In t l -> get_index t l = length l) /\
    (forall u, In t l -> get_index t l = get_index u l -> t = u).
Proof.
  intros t l. split; [apply get_index_lt|]. split; [apply get_index_in|]. split; [apply get_index_out|].
  intros u. apply get_index_inj.
Qed.
Print Assumptions C46_type_positions.

Example C46_nonvacuous :
  all_distinct [("a", 3); ("b", 5)]%string /\ ep_parse true (ep_build [("a", 3); ("b", 5)]%string) "b" = Ok 5 /\
  ep_name Nat.eqb true (ep_build [("a", 3); ("b", 5)]%string) 3 = Ok "a"%string /\
  ep_name Nat.eqb true tracker_parser 8 = Ok "Eigen_dgemm"%string.
Proof.
  split; [|repeat split; vm_compute; reflexivity].
  split; repeat constructor; cbn; intuition discriminate.
Qed.

(** ** C47 *)
(** The square band matrix of the benchmark settings. *)
Theorem C47_band_matrix :
  forall (D : Type) dbg (zero v : D) n bw, bw <= n + 1 ->
    exists d, band_matrix dbg zero n n bw v = Ok d /\ is_mat d n n (band zero v bw) /\
      d_orient d = ColMajor /\ full_ok d /\ d_own d = true.
Proof.
  intros D dbg zero v n bw H.
  destruct (band_matrix_ok dbg zero v n n bw (Nat.le_refl n) H) as (d & E & M & O).
  exists d. split; [exact E|]. split; [|exact O]. eapply is_mat_ext; [exact M|].
  intros i j Hi Hj. unfold bandr. now destruct (Nat.ltb_spec j n); [|lia].
Qed.
Print Assumptions C47_band_matrix.

(** The matrix generator with more columns than rows: only the leading square
    part has a band. *)
Theorem C47_wide_band_matrix :
  forall (D : Type) dbg (zero v : D) rows cols bw, rows <= cols -> bw <= rows + 1 ->
    exists d, band_matrix dbg zero rows cols bw v = Ok d /\
      is_mat d rows cols (fun i j => if j <? rows then band zero v bw i j else zero) /\ full_ok d.
Proof.
  intros D dbg zero v rows cols bw Hc H.
  destruct (band_matrix_ok dbg zero v rows cols bw Hc H) as (d & E & M & _ & F & _). exists d. auto.
Qed.
Print Assumptions C47_wide_band_matrix.

Example C47_nonvacuous : exists d, band_matrix true 0 3 3 2 7 = Ok d /\
  map (fun '(i, j) => dget true d i j) [(0, 0); (0, 1); (0, 2); (2, 1); (2, 0)] = [Ok 7; Ok 7; Ok 0; Ok 7; Ok 0].
Proof. eexists; split; vm_compute; reflexivity. Qed.

(** Wider bands (for example width 10 for dimension 5) do not give a full matrix:
    the loop bound wraps around. *)
Theorem C47_too_wide_refuted :
  forall (D : Type) dbg (zero v : D) n bw, 1 <= n -> n + 1 < bw ->
    band_matrix dbg zero n n bw v = if dbg then AssertFail else UB OOBWrite.
Proof. intros. now apply band_too_wide. Qed.
Print Assumptions C47_too_wide_refuted.
(** More rows than columns: writes outside the matrix. *)
Theorem C47_tall_refuted :
  band_matrix true 0 3 2 1 7 = AssertFail /\ band_matrix false 0 3 2 1 7 = UB OOBWrite.
Proof. split; vm_compute; reflexivity. Qed.
(** Part of the band is missing right of the square part: (0, 2) is at distance 2,
    width 3. *)
Theorem C47_wide_missing_refuted : exists d, band_matrix true 0 2 3 3 7 = Ok d /\ dget true d 0 2 = Ok 0.
Proof. eexists; split; vm_compute; reflexivity. Qed.

(** ** C48 *)
Theorem C48_type_matrix :
  forall (F D : Type) (b : blocked F D) r c f, blocks_are b r c f -> d_orient (b_mat b) = ColMajor ->
    exists t, generateTypeMatrix b = Ok t /\ is_mat t r c (fun i j => type_index (f i j)) /\ full_ok t.
Proof.
  intros F D b r c f M O.
  destruct (gen_matrix_ok type_of_ptr b r c f _ M O (fun i j _ _ => eq_refl)) as (t & E & Mt & _ & Ft & _). eauto.
Qed.
Print Assumptions C48_type_matrix.

Theorem C48_dimension_matrix :
  forall (F D : Type) (ar : arith F D) exc dbg (b : blocked F D) rl cl g, rep_blocked ar b rl cl g ->
    exists t, generateDimensionMatrix exc dbg b = Ok t /\
      is_mat t (length rl) (length cl) (fun i j => (nth i rl 0, nth j cl 0)) /\ full_ok t.
Proof.
  intros F D ar exc dbg b rl cl g R. destruct (rep_blocked_blocks ar b rl cl g R) as (O & f & M & B).
  destruct (gen_matrix_ok (dim_of_ptr exc dbg) b _ _ f (fun i j => (nth i rl 0, nth j cl 0)) M O) as (t & E & Mt & _ & Ft & _).
  - intros i j Hi Hj. destruct (B i j Hi Hj) as [T R']. unfold dim_of_ptr, dyn_rows, dyn_cols.
    rewrite !exec_member_ok by auto. destruct (rep_dims ar _ _ _ _ R') as [-> ->]. reflexivity.
  - eauto.
Qed.
Print Assumptions C48_dimension_matrix.

(** The norm matrix holds the 2-norm of every block, for one-part blocks. *)
Theorem C48_norm_matrix :
  forall (F D : Type) (ar : arith F D) (nx : nops F D) (SD : Scalar D), nexact ar nx -> sqrtD nx s0 = s0 ->
  forall exc dbg (b : blocked F D) rl cl g, rep_blocked ar b rl cl g ->
    (forall I J d, I < length rl -> J < length cl -> dget true (b_mat b) I J = Ok (Some d) -> exists l, d = DL l /\ l_compact l) ->
    exists t, generateNormMatrix ar nx exc dbg b = Ok t /\ full_ok t /\
      is_mat t (length rl) (length cl) (fun I J =>
        norm2 nx (nth I rl 0) (nth J cl 0) (fun i j => g (offs rl I + i) (offs cl J + j))).
Proof.
  intros F D ar nx SD X S0 exc dbg b rl cl g R HL. destruct (rep_blocked_blocks ar b rl cl g R) as (O & f & M & B).
  destruct (gen_matrix_ok (norm_of_ptr ar nx exc dbg) b _ _ f (fun I J =>
        norm2 nx (nth I rl 0) (nth J cl 0) (fun i j => g (offs rl I + i) (offs cl J + j))) M O) as (t & E & Mt & _ & Ft & _).
  - intros i j Hi Hj. destruct (B i j Hi Hj) as [T R']. unfold norm_of_ptr. rewrite exec_member_ok by auto.
    destruct M as [_ (_ & _ & HG)]. destruct (HL i j (f i j) Hi Hj (HG i j Hi Hj)) as (l & El & Cl).
    rewrite El in *. cbn [rep] in R'. destruct (norm_leaf_spec ar nx X NTwo l _ _ _ S0 R' Cl) as (v & Ev & Hv).
    cbn [is_norm] in Hv. now rewrite Ev, Hv.
  - eauto.
Qed.
Print Assumptions C48_norm_matrix.
(** A two-part block: the method is not implemented, and unless failures are
    turned into exceptions or assertions, the norm matrix silently contains 0. *)
Theorem C48_norm_matrix_refuted :
  exists b t, rep_blocked zar b [2] [3] demo_sum /\ generateNormMatrix zar znx false false b = Ok t /\
    dget true t 0 0 = Ok 0%Z /\ sumsq znx 2 3 demo_sum = 149%Z.
Proof.
  exists (mkBlocked (mkDense (own_shape ColMajor 1 1) 1 (map Some [Some (two demoS demoC)]) true) 2 3). eexists. split; [|split; [vm_compute; reflexivity|split; vm_compute; reflexivity]].
  split; [reflexivity|]. split; [reflexivity|]. split; [reflexivity|].
  exists (fun _ _ => Some (two demoS demoC)). split.
  - split; [repeat split; reflexivity|]. split; [reflexivity|]. split; [reflexivity|].
    intros [|i] [|j] Hi Hj; try (cbn in *; lia); reflexivity.
  - intros [|i] [|j] Hi Hj; try (cbn in *; lia). exists (two demoS demoC). split; [reflexivity|]. split; [cbn; tauto|].
    exact two_rep.
Qed.

(** The counting loop adds to every counter the number of blocks of that type,
    and these numbers add up to the number of blocks. *)
Theorem C48_type_counting :
  forall (F D : Type) (b : blocked F D) r c f (init : list nat),
    blocks_are b r c f -> (forall i j, i < r -> j < c -> In (dyn_ty (f i j)) type_list) ->
    length init = length type_list ->
    exists cnt, type_counting_from (map Some init) b = Ok (map Some cnt) /\ length cnt = length type_list /\
      (forall t, t < length type_list -> nth t cnt 0 = nth t init 0 + count2 r c (fun i j => type_index (f i j) =? t)) /\
      list_sum (map (fun t => count2 r c (fun i j => type_index (f i j) =? t)) (seq 0 (length type_list))) = r * c.
Proof.
  intros F D b r c f init M HT L. destruct (type_counting_ok b r c f init M L HT) as (cnt & E & Lc & H).
  exists cnt. split; [exact E|]. split; [exact Lc|]. split; [exact H|].
  rewrite <- (storage_length ColMajor r c (fun _ _ => 0)), storage_order_map, map_length.
  erewrite map_ext.
  - apply (count_partition (fun p => type_index (f (fst p) (snd p)))). intros [i j] Hin. apply in_order in Hin as [Hi Hj].
    apply get_index_lt. now apply HT.
  - intros t. cbn beta. symmetry. apply (count_order (fun i j => type_index (f i j) =? t)).
Qed.
Print Assumptions C48_type_counting.
(** The library's function starts from an uninitialised array. *)
Theorem C48_uninitialised_counting_refuted :
  forall (F D : Type) (b : blocked F D) r c f, blocks_are b r c f -> 1 <= r -> 1 <= c ->
    (forall i j, i < r -> j < c -> In (dyn_ty (f i j)) type_list) ->
    get_type_counting b = UB UninitRead.
Proof.
  intros F D b r c f M Hr Hc HT. unfold get_type_counting, type_counting_from. rewrite (own_iter _ _ _ _ M). cbn [bind].
  rewrite foldM_map. destruct (order_nth (d_orient (b_mat b)) r c 0) as (i & j & Eo & Hi & Hj); [nia|].
  assert (H1 : exists n, r * c = S n) by (exists (r * c - 1); nia). destruct H1 as (n & ->). cbn [seq foldM].
  rewrite (own_rdz _ _ _ _ 0 M i j Eo). cbn [bind type_of_ptr deref].
  assert (Ht : type_index (f i j) < length type_list) by (apply get_index_lt; now apply HT).
  unfold rd at 1, alloc. rewrite nth_error_repeat by auto. reflexivity.
Qed.
Print Assumptions C48_uninitialised_counting_refuted.

Lemma nb_blocks : blocks_are nb 1 2 (fun _ J => match J with 0 => DL (LDd nb_dense) | _ => DL (LSd nb_sparse) end).
Proof.
  split; [repeat split; reflexivity|]. split; [reflexivity|]. split; [reflexivity|].
  intros [|i] [|[|j]] Hi Hj; try (cbn in *; lia); reflexivity.
Qed.
Example C48_nonvacuous :
  blocks_are nb 1 2 (fun _ J => match J with 0 => DL (LDd nb_dense) | _ => DL (LSd nb_sparse) end) /\
  rep_blocked zar nb [2] [2; 1] nb_g /\
  (exists t, generateTypeMatrix nb = Ok t /\ exists k, dget true t 0 0 = Ok k /\ nth_error type_list k = Some (TL (TD ED))) /\
  (exists t, generateDimensionMatrix true true nb = Ok t /\ dget true t 0 1 = Ok (2, 1)) /\
  (exists t, generateNormMatrix zar znx true true nb = Ok t /\ dget true t 0 1 = Ok 12%Z) /\
  exists cnt, type_counting_from (map Some (repeat 0 (length type_list))) nb = Ok (map Some cnt) /\ list_sum cnt = 2.
Proof.
  split; [exact nb_blocks|]. split; [exact nb_rep|].
  split; [eexists; split; [vm_compute; reflexivity|]; eexists; split; vm_compute; reflexivity|].
  split; [eexists; split; vm_compute; reflexivity|].
  split; [eexists; split; vm_compute; reflexivity|].
  destruct (C48_type_counting Z Z nb 1 2 _ (repeat 0 (length type_list)) nb_blocks) as (cnt & E & L & H1 & H2).
  - intros [|i] [|[|j]] Hi Hj; try (cbn in *; lia); cbn; tauto.
  - reflexivity.
  - exists cnt. split; [exact E|]. transitivity (1 * 2); [|reflexivity]. rewrite <- H2.
    rewrite (list_nth_seq cnt 0), L. f_equal. apply map_ext_in. intros t Ht. apply in_seq in Ht.
    rewrite H1 by lia. rewrite nth_repeat. reflexivity.
Qed.

(** ** C49 *)
(** Two dense matrices or windows of equal dimensions and the same storage order:
    the reported value is the largest absolute difference (0 without elements),
    for any element types with a difference [diff]. *)
Theorem C49_maximal_deviation :
  forall (F D : Type) (ar : arith F D) (SD : Scalar D), d0 ar = s0 -> linear ar -> abs_pos ar ->
  forall (A B : Type) (diff : A -> B -> D) (a : dense A) (b : dense B) r c fa fb,
    view a r c fa -> view b r c fb -> iterable a -> iterable b -> d_orient a = d_orient b ->
    exists m, max_deviation (d0 ar) diff (absD ar) (ltD ar) (dense_cells a) (dense_cells b) = Ok m /\
      is_norm_max ar r c (fun i j => diff (fa i j) (fb i j)) m.
Proof. intros. now apply max_deviation_ok. Qed.
Print Assumptions C49_maximal_deviation.

(** The root of the mean of the squared differences. *)
Theorem C49_root_mean_square_deviation :
  forall (F D : Type) (ar : arith F D) (SD : Scalar D), exact ar ->
  forall (sq root : D -> D) (divn : D -> nat -> D) (A B : Type) (diff : A -> B -> D) (a : dense A) (b : dense B) r c fa fb,
    view a r c fa -> view b r c fb -> iterable a -> iterable b -> d_orient a = d_orient b ->
    rms_deviation (d0 ar) diff sq (addD ar) root divn (d_rows a) (d_cols a) (dense_cells a) (dense_cells b) =
      Ok (root (divn (sum2 r c (fun i j => sq (diff (fa i j) (fb i j)))) (r * c))).
Proof. intros. now apply rms_deviation_ok. Qed.
Print Assumptions C49_root_mean_square_deviation.

(** The second matrix of the witness: [[1 0 3] [4 5 9]]. *)
Definition demoC2 : dense Z := mkDense (own_shape ColMajor 2 3) 6 (map Some [1; 4; 0; 5; 3; 9]%Z) true.
Definition demoC2_f (i j : nat) : Z := nth j (nth i [[1; 0; 3]; [4; 5; 9]]%Z []) 0%Z.
Lemma demoC2_mat : is_mat demoC2 2 3 demoC2_f.
Proof.
  split; [repeat split; reflexivity|]. split; [reflexivity|]. split; [reflexivity|].
  intros [|[|i]] [|[|[|j]]] Hi Hj; try (cbn in *; lia); reflexivity.
Qed.
Example C49_nonvacuous :
  d0 zar = s0 /\ linear zar /\ abs_pos zar /\ exact zar /\ view demoC 2 3 demoC_f /\ view demoC2 2 3 demoC2_f /\
  iterable demoC /\ iterable demoC2 /\ d_orient demoC = d_orient demoC2 /\
  max_deviation 0%Z Z.sub Z.abs Z.ltb (dense_cells demoC) (dense_cells demoC2) = Ok 3%Z /\
  rms_deviation 0%Z Z.sub (fun x => x * x)%Z Z.add (fun x => x) (fun x n => x) 2 3 (dense_cells demoC) (dense_cells demoC2) = Ok 13%Z.
Proof.
  split; [reflexivity|]. split; [exact zar_linear|]. split; [apply (zar_kok NMax)|]. split; [exact zar_exact|].
  split; [apply demoC_mat|]. split; [apply demoC2_mat|]. split; [left; apply demoC_mat|]. split; [left; apply demoC2_mat|].
  split; [reflexivity|]. split; vm_compute; reflexivity.
Qed.

(** The same matrix stored row by row: the deviation is not 0. *)
Definition demoC_row : dense Z := mkDense (own_shape RowMajor 2 3) 6 (map Some [1; 2; 3; 4; 5; 6]%Z) true.
Lemma demoC_row_mat : is_mat demoC_row 2 3 demoC_f.
Proof.
  split; [repeat split; reflexivity|]. split; [reflexivity|]. split; [reflexivity|].
  intros [|[|i]] [|[|[|j]]] Hi Hj; try (cbn in *; lia); reflexivity.
Qed.
Theorem C49_orientation_refuted :
  is_mat demoC 2 3 demoC_f /\ is_mat demoC_row 2 3 demoC_f /\
  max_deviation 0%Z Z.sub Z.abs Z.ltb (dense_cells demoC) (dense_cells demoC_row) = Ok 2%Z.
Proof. split; [exact demoC_mat|]. split; [exact demoC_row_mat|]. vm_compute. reflexivity. Qed.
(** A dense and a sparse matrix: the sparse one is read beyond its last value;
    the other way round its values are compared with the wrong elements.  Both
    hold [[1 0 2] [0 3 0]]. *)
Definition demoS_dense : dense Z := mkDense (own_shape ColMajor 2 3) 6 (map Some [1; 0; 0; 3; 2; 0]%Z) true.
Theorem C49_sparse_refuted :
  view demoS_dense 2 3 (fun i j => dflt 0%Z (demoS_f i j)) /\ sp_mat demoS 2 3 demoS_f /\
  max_deviation 0%Z Z.sub Z.abs Z.ltb (dense_cells demoS_dense) (sparse_cells demoS) = UB OOBRead /\
  max_deviation 0%Z Z.sub Z.abs Z.ltb (sparse_cells demoS) (dense_cells demoS_dense) = Ok 3%Z.
Proof.
  split; [|split; [exact demoS_mat|split; vm_compute; reflexivity]].
  split; [reflexivity|]. split; [reflexivity|].
  intros [|[|i]] [|[|[|j]]] Hi Hj; try (cbn in *; lia); reflexivity.
Qed.
(** Different dimensions are not detected. *)
Theorem C49_dimensions_refuted :
  max_deviation 0%Z Z.sub Z.abs Z.ltb (dense_cells demoC) (dense_cells (mkDense (own_shape ColMajor 3 2) 6 (d_buf demoC) true)) = Ok 0%Z.
Proof. vm_compute. reflexivity. Qed.

(** ** C50 *)
Lemma Forall2_impl {A B} (P Q : A -> B -> Prop) l1 l2 : (forall a b, P a b -> Q a b) -> Forall2 P l1 l2 -> Forall2 Q l1 l2.
Proof. intros H. induction 1; constructor; auto. Qed.
(** A band entry appends one band matrix per dimension and width, the widths
    running fastest, to the list with its name, and leaves the others alone. *)
Theorem C50_band_entry :
  forall (D : Type) dbg (zero : D) rf name dims widths v (m : mset D),
    (forall n w, In n dims -> In w widths -> w <= n + 1) ->
    exists m' ds, mp_entry dbg zero rf name "DiagonalBand" (NBand dims widths v) m = Ok m' /\
      have m' name = have m name ++ ds /\
      Forall2 (fun nw d => is_mat d (fst nw) (fst nw) (band zero v (snd nw)) /\ d_orient d = ColMajor)
        (flat_map (fun n => map (fun w => (n, w)) widths) dims) ds /\
      forall k, k <> name -> ms_find m' k = ms_find m k.
Proof.
  intros D dbg zero rf name dims widths v m H. unfold mp_entry. rewrite String.eqb_refl.
  assert (G : exists ds, Forall2 (fun nw d => band_matrix dbg zero (fst nw) (fst nw) (snd nw) v = Ok d /\
      is_mat d (fst nw) (fst nw) (band zero v (snd nw)) /\ d_orient d = ColMajor) (flat_map (fun n => map (fun w => (n, w)) widths) dims) ds).
  { assert (Q : forall nw, In nw (flat_map (fun n => map (fun w => (n, w)) widths) dims) -> snd nw <= fst nw + 1).
    { intros [n w] Hin. apply in_flat_map in Hin as (n' & Hn & Hw). apply in_map_iff in Hw as (w' & E & Hw). injection E as -> ->. now apply H. }
    induction (flat_map _ dims) as [|[n w] l IH]; [exists []; constructor|].
    destruct IH as (ds & Hd); [intros; apply Q; now right|].
    destruct (C47_band_matrix D dbg zero v n w (Q (n, w) (or_introl eq_refl))) as (d & E & M & O & _). exists (d :: ds). constructor; auto. }
  destruct G as (ds & Hd).
  destruct (push_loop (fun nw => band_matrix dbg zero (fst nw) (fst nw) (snd nw) v) name
    (flat_map (fun n => map (fun w => (n, w)) widths) dims) ds m) as (m' & E & H1 & H2).
  { eapply Forall2_impl; [|exact Hd]. cbn. tauto. }
  exists m', ds. split; [|split; [exact H1|split; [eapply Forall2_impl; [|exact Hd]; cbn; tauto|exact H2]]].
  rewrite <- E. rewrite foldM_flat_map. apply foldM_ext. intros n s _. symmetry. apply foldM_map.
Qed.
Print Assumptions C50_band_entry.

(** An entry equal to an earlier one gets the same matrices; an unknown name is
    an error. *)
Theorem C50_equal_entry :
  forall (D : Type) dbg (zero : D) rf name src (m : mset D),
    mp_entry dbg zero rf name "EqualTo" (NText src) m =
      match ms_find m src with
      | None => Throw
      | Some l => if String.eqb src name then UB DeadObject else Ok (ms_put m name l)
      end /\
    forall l, ms_find m src = Some l -> src <> name ->
      ms_find (ms_put m name l) name = ms_find m src /\ forall k, k <> name -> ms_find (ms_put m name l) k = ms_find m k.
Proof.
  intros D dbg zero rf name src m. split; [reflexivity|]. intros l E N. rewrite find_put, E. split; auto.
  intros k Hk. now apply find_put_ne.
Qed.
Print Assumptions C50_equal_entry.

(** A file entry appends the imported matrix; what the import reports is passed
    on. *)
Theorem C50_file_entry :
  forall (D : Type) dbg (zero : D) (rf : string -> res (dense D)) name file (m : mset D),
    (forall d, rf file = Ok d -> exists m', mp_entry dbg zero rf name "File" (NText file) m = Ok m' /\
       have m' name = have m name ++ [d] /\ forall k, k <> name -> ms_find m' k = ms_find m k) /\
    (rf file = Throw -> mp_entry dbg zero rf name "File" (NText file) m = Throw).
Proof.
  intros D dbg zero rf name file m. unfold mp_entry. cbn. split; intros.
  - rewrite H. cbn [bind]. eexists. split; [reflexivity|]. unfold have. split.
    + unfold ms_push at 1. rewrite find_put. reflexivity.
    + intros k Hk. unfold ms_push. now apply find_put_ne.
  - now rewrite H.
Qed.
Print Assumptions C50_file_entry.

(** A node of the wrong shape is an error for each of the three types. *)
Theorem C50_malformed_entry :
  forall (D : Type) dbg (zero : D) rf name type (m : mset D), In type ["DiagonalBand"; "EqualTo"; "File"]%string ->
    mp_entry dbg zero rf name type NBad m = Throw.
Proof.
  intros D dbg zero rf name type m [<-|[<-|[<-|[]]]]; reflexivity.
Qed.
Print Assumptions C50_malformed_entry.

(** The settings are processed entry by entry in file order, starting from
    nothing; the first error ends it. *)
Theorem C50_in_order :
  forall (D : Type) dbg (zero : D) rf (t1 t2 : @tree D) name type nd,
    mp_new dbg zero rf [] = Ok [] /\
    mp_new dbg zero rf (t1 ++ (name, [(type, nd)]) :: t2) =
      (do m <- mp_new dbg zero rf t1; do m <- mp_entry dbg zero rf name type nd m;
       foldM (fun '(name, leaves) m => foldM (fun '(type, nd) m => mp_entry dbg zero rf name type nd m) leaves m) t2 m).
Proof.
  intros D dbg zero rf t1 t2 name type nd. split; [reflexivity|].
  unfold mp_new. rewrite foldM_app. apply bind_ext. intros m _. cbn [foldM].
  rewrite bind_ret. reflexivity.
Qed.
Print Assumptions C50_in_order.

(** The benchmark starts only with equally many, at least one, matrices A and B
    and at least one action, and then pairs them in order. *)
Theorem C50_benchmark_checks :
  forall (D A : Type) (m : mset D) (actions : list A) la lb,
    ms_find m "A" = Some la -> ms_find m "B" = Some lb ->
    (bench_setup m actions = Ok (combine la lb) /\ la <> [] /\ length la = length lb /\ actions <> []) \/
    (bench_setup m actions = Throw /\ (la = [] \/ length la <> length lb \/ actions = [])).
Proof.
  intros D A m actions la lb EA EB. unfold bench_setup, mp_get. rewrite EA, EB. cbn [bind].
  destruct (Nat.eqb_spec (length la) 0) as [E0|E0]; [right; split; auto; left; now apply length_zero_iff_nil|].
  destruct (Nat.eqb_spec (length la) (length lb)) as [E|E]; cbn [negb]; [|right; split; auto].
  destruct (Nat.eqb_spec (length actions) 0) as [E1|E1]; [right; split; auto; right; right; now apply length_zero_iff_nil|].
  left. split; [reflexivity|]. split; [now intros ->|]. split; [exact E|now intros ->].
Qed.
Print Assumptions C50_benchmark_checks.

(** The actions are those of the known names, in file order. *)
Theorem C50_actions :
  forall (A : Type) (known : string -> option A) t,
    ap_new known t = flat_map (fun n => match known n with Some a => [a] | None => [] end) t.
Proof.
  intros A known t. unfold ap_new.
  enough (G : forall l acc, fold_left (fun l n => match known n with Some a => l ++ [a] | None => l end) l acc =
    acc ++ flat_map (fun n => match known n with Some a => [a] | None => [] end) l) by apply G.
  induction l as [|n l IH]; intros acc; cbn [fold_left flat_map]; [now rewrite app_nil_r|].
  rewrite IH. destruct (known n); [|reflexivity]. now rewrite <- app_assoc.
Qed.
Print Assumptions C50_actions.

Example C50_nonvacuous : exists m la, mp_new true 0%Z (fun _ => Throw)
    [("A", [("DiagonalBand", NBand [2; 3] [1] 5%Z)]); ("B", [("EqualTo", NText "A")])]%string = Ok m /\
  ms_find m "A" = Some la /\ ms_find m "B" = Some la /\ length la = 2 /\ map (@d_rows Z) la = [2; 3] /\
  bench_setup m [tt] = Ok (combine la la).
Proof.
  eexists. eexists. split; [vm_compute; reflexivity|]. repeat split; vm_compute; reflexivity.
Qed.

(** An unknown matrix type is not reported: the entry is skipped. *)
Theorem C50_unknown_type_refuted :
  forall (D : Type) dbg (zero : D) rf name nd (m : mset D), mp_entry dbg zero rf name "DiagnoalBand" nd m = Ok m.
Proof. reflexivity. Qed.
(** So is an unknown action. *)
Theorem C50_unknown_action_refuted :
  forall (A : Type) (known : string -> option A) n t1 t2, known n = None -> ap_new known (t1 ++ n :: t2) = ap_new known (t1 ++ t2).
Proof.
  intros A known n t1 t2 H. rewrite !C50_actions, !flat_map_app. cbn [flat_map]. now rewrite H.
Qed.
Print Assumptions C50_unknown_action_refuted.
(** Settings without matrices A: not an exception but an invalid access; an entry
    equal to itself likewise. *)
Theorem C50_missing_refuted :
  bench_setup ([] : mset Z) [tt] = UB OOBRead /\
  mp_new true 0%Z (fun _ => Throw) [("A", [("DiagonalBand", NBand [2] [1] 5%Z); ("EqualTo", NText "A")])]%string = UB DeadObject.
Proof. split; vm_compute; reflexivity. Qed.

(** ** C56 *)
(** The picture of the block types: the element in row [i'], column [j'] of block
    (I, J) is 0 within the border of the block's upper and left side and
    otherwise the shade of the block's type. *)
Theorem C56_type_picture :
  forall (F DD D : Type) (ar : arith F DD) (zero : D) (shade : nat -> D) exc dbg (b : blocked F DD) rl cl g bw,
    rep_blocked ar b rl cl g ->
    (forall n, In n rl \/ In n cl -> 1 <= n /\ bw <= n) -> (Z.of_nat (list_sum rl * list_sum cl) < 2 ^ 63)%Z ->
    exists f out, blocks_are b (length rl) (length cl) f /\
      type_picture zero shade exc dbg (list_sum rl) (list_sum cl) bw b = Ok out /\
      is_mat out (list_sum rl) (list_sum cl) (fun i j =>
        let '(bi, i') := locate rl i in let '(bj, j') := locate cl j in
        block_pixel zero shade bw (type_index (f bi bj)) i' j') /\ full_ok out.
Proof.
  intros F DD D ar zero shade exc dbg b rl cl g bw R HB HS.
  destruct (rep_blocked_blocks ar b rl cl g R) as (O & f & M & B). exists f.
  destruct (C48_type_matrix F DD b _ _ f M O) as (t & Et & Mt & _).
  destruct (C48_dimension_matrix F DD ar exc dbg b rl cl g R) as (d & Ed & Md & _).
  destruct (type_blocks_ok zero shade dbg rl cl bw t d _ _ Mt Md
    ltac:(intros h w Hh Hw; destruct (HB h (or_introl Hh)), (HB w (or_intror Hw)); unfold fits; lia) HS (locate_tiled zero shade rl cl _ bw)) as (out & E & Mo & _ & Fo).
  exists out. split; [exact M|]. split; [|split; [exact Mo|exact Fo]].
  unfold type_picture. rewrite Et. cbn [bind]. rewrite Ed. cbn [bind]. exact E.
Qed.
Print Assumptions C56_type_picture.
(** [locate] finds the block that contains a row or column. *)
Theorem C56_locate :
  forall l i, i < list_sum l -> exists k o, locate l i = (k, o) /\ k < length l /\ o < nth k l 0 /\ i = offs l k + o.
Proof.
  intros l i H. destruct (offs_find l i H) as (k & Hk & H1 & H2). rewrite offs_S in H2 by auto.
  exists k, (i - offs l k). split; [|repeat split; auto; lia].
  replace i with (offs l k + (i - offs l k)) at 1 by lia. apply locate_offs; auto; lia.
Qed.
Print Assumptions C56_locate.
Example C56_nonvacuous :
  rep_blocked zar nb [2] [2; 1] nb_g /\ (forall n, In n [2] \/ In n [2; 1] -> 1 <= n /\ 1 <= n) /\
  exists out, type_picture 0 (fun t => 100 + t) true true 2 3 1 nb = Ok out /\
    map (fun '(i, j) => dget true out i j) [(0, 0); (1, 0); (0, 1); (1, 1); (1, 2)] =
    [Ok 0; Ok 0; Ok 0; Ok (100 + type_index (DL (LDd nb_dense) : dyn Z Z)); Ok 0].
Proof.
  split; [exact nb_rep|]. split; [cbn; intuition lia|]. eexists; split; vm_compute; reflexivity.
Qed.
(** A border wider than a block writes outside the block or fails. *)
Theorem C56_wide_border_refuted :
  type_picture 0 (fun t => 100 + t) true true 2 3 2 nb = AssertFail /\
  type_picture 0 (fun t => 100 + t) true false 2 3 2 nb = UB OOBWrite.
Proof. split; vm_compute; reflexivity. Qed.

(** ** C57 *)
(** For every history of properly nested scopes, whatever scopes are still open
    around it: the open scopes are unchanged and every register has grown by the
    number and the durations of the scopes left. *)
Theorem C57_counts_and_times :
  forall ev done, nest ev done -> forall open r, length (tr_time r) = tracker_size -> length (tr_count r) = tracker_size ->
    exists r', foldM tstep ev (open, r) = Ok (open, r') /\
      forall id, id < tracker_size ->
        nth id (tr_count r') 0 = nth id (tr_count r) 0 + times_left id done /\
        nth id (tr_time r') 0%Z = (nth id (tr_time r) 0 + time_in id done)%Z.
Proof.
  intros ev done N open r L1 L2. destruct (nest_run ev done N open r (conj L1 L2)) as (r' & E & _ & H). eauto.
Qed.
Print Assumptions C57_counts_and_times.

(** The printed table lists, in the order of the identifiers, exactly the
    identifiers whose scopes were left at least once, with name, number and total
    time. *)
Theorem C57_report :
  forall dbg ev done, nest ev done ->
    exists r, foldM tstep ev ([], treg0) = Ok ([], r) /\
      treg_print dbg r = Ok (map (fun id => (nth id tracker_names EmptyString, times_left id done, time_in id done))
        (filter (fun id => negb (times_left id done =? 0)) (seq 0 tracker_size))).
Proof.
  intros dbg ev done N. destruct (nest_run ev done N [] treg0 treg0_ok) as (r & E & R & H). exists r. split; [exact E|].
  rewrite (treg_print_ok dbg r R). f_equal.
  assert (Z : forall id, id < tracker_size -> nth id (tr_count r) 0 = times_left id done /\ nth id (tr_time r) 0%Z = time_in id done).
  { intros id Hid. destruct (H id Hid) as [-> ->]. unfold treg0. cbn [tr_count tr_time]. rewrite !nth_repeat. split; [reflexivity|]. apply Z.add_0_l. }
  assert (Zf : forall l, (forall id, In id l -> id < tracker_size) ->
    filter (fun i => negb (nth i (tr_count r) 0 =? 0)) l = filter (fun id => negb (times_left id done =? 0)) l).
  { induction l as [|x l IH]; intros Hl; [reflexivity|]. cbn [filter]. rewrite IH by (intros; apply Hl; now right).
    destruct (Z x (Hl x (or_introl eq_refl))) as [-> _]. reflexivity. }
  rewrite Zf by (intros id Hi; apply in_seq in Hi; lia).
  apply map_ext_in. intros id Hid. apply filter_In in Hid as [Hid _]. apply in_seq in Hid.
  destruct (Z id) as [-> ->]; [lia|]. reflexivity.
Qed.
Print Assumptions C57_report.
Example C57_nonvacuous :
  nest [TEnter 24 0; TEnter 23 10; TLeave 15; TEnter 23 20; TLeave 22; TLeave 30]%Z [(23%nat, 5); (23%nat, 2); (24%nat, 30)]%Z /\
  exists r, foldM tstep [TEnter 24 0; TEnter 23 10; TLeave 15; TEnter 23 20; TLeave 22; TLeave 30]%Z ([], treg0) = Ok ([], r) /\
    treg_print true r = Ok [("get_detection_arrays"%string, 2, 7%Z); ("get_block_size"%string, 1, 30%Z)].
Proof.
  split.
  - apply (nest_scope 24 0 30 [TEnter 23 10; TLeave 15; TEnter 23 20; TLeave 22]%Z [(23%nat, 5); (23%nat, 2)]%Z [] []); [unfold tracker_size; lia| |constructor].
    apply (nest_scope 23 10 15 [] [] [TEnter 23 20; TLeave 22]%Z [(23%nat, 2)]%Z); [unfold tracker_size; lia|constructor|].
    apply (nest_scope 23 20 22 [] [] [] []); [unfold tracker_size; lia|constructor|constructor].
  - eexists; split; vm_compute; reflexivity.
Qed.

(** ** C59 *)
(** What the benchmark prints about a result: the largest absolute difference to
    the reference result and the 2-norm of the difference. *)
Theorem C59_reported_error :
  forall (F D : Type) (ar : arith F D) (nx : nops F D) (SD : Scalar D), nexact ar nx ->
    linear ar -> abs_pos ar -> sqrtD nx s0 = s0 ->
  forall dbg (C R : dense D) r c f g,
    is_mat C r c f -> is_mat R r c g -> d_orient C = ColMajor -> d_orient R = ColMajor ->
    exists m, bench_report ar nx dbg C R = Ok (m, norm2 nx r c (fun i j => ssub (f i j) (g i j))) /\
      is_norm_max ar r c (fun i j => ssub (f i j) (g i j)) m.
Proof.
  intros F D ar nx SD X L P S0 dbg C R r c f g MC MR OC OR. unfold bench_report.
  assert (XX := nx_exact ar nx X).
  destruct (bin_leaf_spec ar XX Minus dbg (LDd C) (LDd R) r c f g (conj OC MC) (conj OR MR) eq_refl) as (e & E & T & Re).
  rewrite E. cbn [bind].
  assert (Ce : l_compact e) by (destruct e; cbn in T; try discriminate; exact I).
  destruct (norm_leaf_spec ar nx X NMax e r c _ (conj L P) Re Ce) as (m & Em & Hm).
  destruct (norm_leaf_spec ar nx X NTwo e r c _ S0 Re Ce) as (t & Et & Ht).
  rewrite Em. cbn [bind]. rewrite Et. cbn [bind]. exists m. cbn [is_norm] in *.
  split; [now rewrite Ht|exact Hm].
Qed.
Print Assumptions C59_reported_error.

(** The maximum norm is 0 exactly if the results agree. *)
Theorem C59_zero_error_means_equal :
  forall (F D : Type) (ar : arith F D) (nx : nops F D) (SD : Scalar D), nexact ar nx ->
    linear ar -> abs_pos ar -> sqrtD nx s0 = s0 -> (forall x, absD ar x = s0 -> x = s0) ->
  forall dbg (C R : dense D) r c f g m t,
    is_mat C r c f -> is_mat R r c g -> d_orient C = ColMajor -> d_orient R = ColMajor ->
    bench_report ar nx dbg C R = Ok (m, t) ->
    (m = s0 <-> forall i j, i < r -> j < c -> f i j = g i j).
Proof.
  intros F D ar nx SD X L P S0 A0 dbg C R r c f g m t MC MR OC OR E.
  destruct (C59_reported_error F D ar nx SD X L P S0 dbg C R r c f g MC MR OC OR) as (m' & E' & HM).
  rewrite E in E'. injection E' as <- _. pose proof (ex_ring ar (nx_exact ar nx X)) as RL. destruct HM as [H1 H2]. split.
  - intros -> i j Hi Hj.
    assert (Q : absD ar (ssub (f i j) (g i j)) = s0) by (apply (le_antisym' ar L); auto).
    apply A0 in Q. rewrite r_sub in Q.
    rewrite <- (r_add0l (g i j)), <- Q, <- r_addA, (r_addC (sopp (g i j))), r_oppr, r_addC. symmetry. apply r_add0l.
  - intros H. destruct H2 as [[-> _]|(i & j & Hi & Hj & ->)]; [reflexivity|].
    rewrite H, r_sub, r_oppr by auto. apply (nx_abs0 ar nx X).
Qed.
Print Assumptions C59_zero_error_means_equal.
Example C59_nonvacuous :
  nexact zar znx /\ linear zar /\ abs_pos zar /\ sqrtD znx s0 = s0 /\ (forall x, absD zar x = s0 -> x = s0) /\
  is_mat demoC 2 3 demoC_f /\ is_mat demoC2 2 3 demoC2_f /\
  bench_report zar znx true demoC demoC2 = Ok (3, 3)%Z /\ bench_report zar znx true demoC demoC = Ok (0, 0)%Z.
Proof.
  split; [exact znx_exact|]. split; [exact zar_linear|]. split; [apply (zar_kok NMax)|]. split; [reflexivity|].
  split; [exact Z.abs_0_iff || (intros x; apply Z.abs_0_iff)|].
  split; [exact demoC_mat|]. split; [exact demoC2_mat|]. split; vm_compute; reflexivity.
Qed.

(** ** C60 *)
(** The random matrix has the requested dimensions and every element is set to a
    sign times 10 to minus a drawn exponent, in whatever order C++ evaluates the
    two draws; [elem s u] stands for the product. *)
Theorem C60_random_matrix :
  forall (D E : Type) (elem : bool -> D -> D) (d1 : E -> D * E) (d2 : E -> bool * E) sign_first (e : E) r c,
    exists m, generate_random elem d1 d2 sign_first e r c = Ok m /\ full_ok m /\ d_own m = true /\ d_orient m = ColMajor /\
      is_mat m r c (fun i j => kth_value elem d1 d2 sign_first (i + j * r) e).
Proof.
  intros. destruct (generate_ok elem d1 d2 sign_first e r c) as (m & H1 & H2 & H3 & H4 & H5). exists m. auto.
Qed.
Print Assumptions C60_random_matrix.
(** If every draw lies in the declared range, so does every element's exponent. *)
Theorem C60_range :
  forall (D E : Type) (elem : bool -> D -> D) (d1 : E -> D * E) (d2 : E -> bool * E) (in_range : D -> Prop),
    (forall e, in_range (fst (d1 e))) ->
  forall sign_first (e : E) r c m i j x,
    generate_random elem d1 d2 sign_first e r c = Ok m -> i < r -> j < c -> dget true m i j = Ok x ->
    exists s u, in_range u /\ x = elem s u.
Proof.
  intros D E elem d1 d2 rg H sf e r c m i j x Em Hi Hj Ex.
  destruct (C60_random_matrix D E elem d1 d2 sf e r c) as (m' & E' & _ & _ & _ & [_ (_ & _ & V)]).
  rewrite Em in E'. injection E' as <-. rewrite V in Ex by auto. injection Ex as <-.
  unfold kth_value, pair_drawn. destruct sf; cbn; eexists; eexists; (split; [|reflexivity]); apply H.
Qed.
Print Assumptions C60_range.
Example C60_nonvacuous :
  exists m, generate_random (fun (s : bool) u => if s then (- u)%Z else u) (fun e => (Z.of_nat e mod 3, S e)%Z) (fun e => (Nat.even e, S e)) true 1 2 2 = Ok m /\
    map (fun '(i, j) => dget true m i j) [(0, 0); (1, 0); (0, 1); (1, 1)] = [Ok 2; Ok 1; Ok 0; Ok 2]%Z.
Proof. eexists; split; vm_compute; reflexivity. Qed.
(** The result depends on the order of the two draws, which C++ leaves open: the
    same seed may give different matrices with different compilers. *)
Theorem C60_reproducible_refuted :
  exists m1 m2 x1 x2,
    generate_random (fun (s : bool) u => if s then (- u)%Z else u) (fun e => (Z.of_nat e, S e)%Z) (fun e => (Nat.even e, S e)) true 1 1 1 = Ok m1 /\
    generate_random (fun (s : bool) u => if s then (- u)%Z else u) (fun e => (Z.of_nat e, S e)%Z) (fun e => (Nat.even e, S e)) false 1 1 1 = Ok m2 /\
    dget true m1 0 0 = Ok x1 /\ dget true m2 0 0 = Ok x2 /\ x1 <> x2.
Proof. do 4 eexists. split; [vm_compute; reflexivity|]. split; [vm_compute; reflexivity|]. split; [vm_compute; reflexivity|]. split; [vm_compute; reflexivity|]. discriminate. Qed.
