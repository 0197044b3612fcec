(** C42: norms.  Vocabulary: Norm_Spec.v ([is_norm], [norm1], [norm2],
    [is_norm_max], [compact], [normable]) and Dyn_Spec.v. *)
From Verif Require Import Base BaseLemmas Dense_Model Dense_Spec Dense_Proofs Dense2_Proofs Sparse_Model Sparse_Spec
  Sparse_Proofs Sparse2_Proofs Mult_Model Mult_Spec Dyn_Model Dyn_Spec Dyn_Proofs Dyn2_Proofs Block_Proofs
  Check_Model Check_Spec Dense_Props Sparse_Props Dyn_Props Norm_Model Norm_Spec Norm_Proofs.

(** ** C42 *)
(** In floating point, without any law: the norm of a dense matrix (any
    orientation) or of a non-empty window is the fold over its elements in storage
    order; of a sparse matrix without unused cells, over its stored elements. *)
Theorem C42_dense_norm_evaluates_in_storage_order :
  forall (F D : Type) (ar : arith F D) (nx : nops F D) k r c,
    (forall (d : dense D) f, view d r c f -> iterable d -> norm_leaf ar nx k (LDd d) =
       Ok (n_fin nx k (fold_left (n_accD ar nx k) (in_storage_order (d_orient d) r c f) (d0 ar)))) /\
    (forall (d : dense F) f, view d r c f -> iterable d -> norm_leaf ar nx k (LDf d) =
       Ok (n_fin nx k (fold_left (n_accF ar nx k) (in_storage_order (d_orient d) r c f) (d0 ar)))).
Proof.
  intros F D ar nx k r c. split; intros d f V I; cbn [norm_leaf]; now apply norm_dense_val.
Qed.
Print Assumptions C42_dense_norm_evaluates_in_storage_order.

(** In exact arithmetic: the named norm, for a zero, sparse or dense matrix of
    float or double. *)
Theorem C42_norm_of_one_part :
  forall (F D : Type) (ar : arith F D) (nx : nops F D) (SD : Scalar D), nexact ar nx ->
  forall k (l : leaf F D) r c g, k_ok ar nx k -> rep_leaf ar l r c g -> l_compact l ->
    exists v, norm_leaf ar nx k l = Ok v /\ is_norm ar nx k r c g v.
Proof. intros F D ar nx SD NX. exact (norm_leaf_spec ar nx NX). Qed.
Print Assumptions C42_norm_of_one_part.

(** The same for every non-empty window of a matrix and for row-major matrices. *)
Theorem C42_norm_of_window :
  forall (F D : Type) (ar : arith F D) (nx : nops F D) (SD : Scalar D), nexact ar nx ->
  forall k (w : dense D) r c g, k_ok ar nx k -> view w r c g -> iterable w ->
    exists v, norm_leaf ar nx k (LDd w) = Ok v /\ is_norm ar nx k r c g v.
Proof.
  intros F D ar nx SD NX k w r c g K V I. eexists.
  split; [exact (norm_dense_val ar nx (n_accD ar nx k) k w r c g V I)|]. exact (dense_elems ar nx NX k g _ r c K).
Qed.
Print Assumptions C42_norm_of_window.

(** A sparse matrix made from a dense one satisfies the hypothesis [compact]; so
    does any sparse matrix whose nnz() is the number of elements it stores. *)
Definition is_some {T} (o : option T) : bool := match o with Some _ => true | None => false end.
Lemma sum_n_count n p : sum_n n (fun i => if p i : bool then 1%Z else 0%Z) = Z.of_nat (length (filter p (seq 0 n))).
Proof.
  induction n as [|n IH]; [reflexivity|]. cbn [sum_n]. rewrite IH, seq_S, filter_app, app_length. cbn [plus filter].
  destruct (p n); cbn; lia.
Qed.
Lemma sum2_count r c p : sum2 r c (fun i j => if p i j : bool then 1%Z else 0%Z) = Z.of_nat (count2 r c p).
Proof.
  unfold sum2. induction r as [|r IH]; [reflexivity|]. cbn [sum_n]. rewrite IH, sum_n_count.
  unfold count2. rewrite seq_S, flat_map_app, filter_app, app_length. cbn [flat_map plus]. rewrite app_nil_r.
  rewrite Nat2Z.inj_add. cbn. f_equal. f_equal. generalize (seq 0 c) as l.
  induction l as [|x l IHl]; [reflexivity|]. cbn. destruct (p r x); cbn; rewrite IHl; reflexivity.
Qed.
Theorem C42_compact_if_count_matches :
  forall (T : Type) (s : sparse T) r c f, sp_mat s r c f ->
    (compact s <-> s_nnz s = count2 r c (fun i j => is_some (f i j))).
Proof.
  intros T s r c f M. apply sp_mat_lines in M as (Hr & Hc & _ & L & HR & HL & HO & HD).
  assert (E : length (concat L) = count2 r c (fun i j => is_some (f i j))).
  { apply Nat2Z.inj. rewrite <- sum2_count.
    pose proof (lines_sum zar zar_exact s L f (fun o => if is_some o then 1%Z else 0%Z) eq_refl HL HO HD) as G.
    rewrite Hr, Hc in G. rewrite <- G. clear. generalize (concat L) as l.
    induction l as [|e l IH]; [reflexivity|]. cbn [length map lsum fold_right is_some]. rewrite Nat2Z.inj_succ, IH.
    change (Z.succ (lsum (map (fun _ : nat * T => 1%Z) l)) = (1 + lsum (map (fun _ : nat * T => 1%Z) l))%Z). lia. }
  unfold compact. rewrite <- HL, (repr_off s L HR), start_all, E by lia. split; [injection 1; auto|intros ->; reflexivity].
Qed.
Print Assumptions C42_compact_if_count_matches.
Theorem C42_converted_matrices_are_compact :
  forall (T U : Type) (cv : T -> U) (chk : T -> bool) (o : orient) (d : dense T) r c f,
    col_source d -> view d r c f -> exists s, s_of_dense cv chk o d = Ok s /\ compact s.
Proof.
  intros T U cv chk o d r c f HS HV. destruct (col_source_ok d HS) as (Hok & Hit & Ho).
  destruct (s_of_dense_spec cv chk o d r c f _ HV Hok Ho (le_n _)) as (s & E & Os & N & M).
  exists s. unfold s_of_dense. rewrite (d_count_spec chk d r c f HV Hit). cbn [bind]. split; [exact E|].
  apply (C42_compact_if_count_matches U s r c _ M). rewrite N. unfold count2. f_equal. apply filter_ext.
  intros [i j]. now destruct (chk (f i j)).
Qed.
Print Assumptions C42_converted_matrices_are_compact.

(** The representation does not matter: any two one-part representations of the
    same array have the same norm. *)
Theorem C42_representations_agree :
  forall (F D : Type) (ar : arith F D) (nx : nops F D) (SD : Scalar D), nexact ar nx ->
  forall k (l l' : leaf F D) r c g, k_ok ar nx k -> rep_leaf ar l r c g -> rep_leaf ar l' r c g ->
    l_compact l -> l_compact l' -> exists v, norm_leaf ar nx k l = Ok v /\ norm_leaf ar nx k l' = Ok v.
Proof.
  intros F D ar nx SD NX k l l' r c g K H H' C C'.
  destruct (norm_leaf_spec ar nx NX k l r c g K H C) as (v & E & N).
  destruct (norm_leaf_spec ar nx NX k l' r c g K H' C') as (v' & E' & N').
  exists v. split; [exact E|]. rewrite E'. f_equal. destruct k; cbn [is_norm] in *; try congruence.
  destruct K as [L P]. destruct N as [U A], N' as [U' A'].
  destruct A as [[-> Z]|(i & j & Hi & Hj & ->)].
  - destruct A' as [[-> _]|(i & j & Hi & Hj & _)]; [reflexivity|]. destruct Z; lia.
  - destruct A' as [[-> Z]|(i' & j' & Hi' & Hj' & ->)]; [destruct Z; lia|].
    apply (le_antisym' ar L); auto.
Qed.
Print Assumptions C42_representations_agree.

(** Two-part matrices: norm-two and norm-max are those of the represented sum if
    one part is dense. *)
Theorem C42_norm_of_two_parts :
  forall (F D : Type) (ar : arith F D) (nx : nops F D) (SD : Scalar D), nexact ar nx ->
  forall k dbg (d : dyn F D) r c g, k_ok ar nx k -> k <> NOne -> rep ar d r c g -> normable d ->
    exists v, norm_dyn ar nx k dbg d = Ok v /\ is_norm ar nx k r c g v.
Proof.
  intros F D ar nx SD NX k dbg d r c g K K1 H N. apply (norm_dyn_spec ar nx NX); auto. congruence.
Qed.
Print Assumptions C42_norm_of_two_parts.

(** Norm-two of a blocked matrix is the norm-two of the matrix that was cut,
    provided squaring undoes the square roots taken for the blocks. *)
Theorem C42_norm_of_blocked :
  forall (F D : Type) (ar : arith F D) (nx : nops F D) (SD : Scalar D), nexact ar nx -> sqrtD nx s0 = s0 ->
  forall dbg (b : blocked F D) rl cl g, rep_blocked ar b rl cl g ->
  (forall I J d, I < length rl -> J < length cl -> dget true (b_mat b) I J = Ok (Some d) -> normable d) ->
  (forall I J, I < length rl -> J < length cl ->
     let q := sumsq nx (nth I rl 0) (nth J cl 0) (fun i j => g (offs rl I + i) (offs cl J + j)) in
     sqD nx (sqrtD nx q) = q) ->
  norm_blocked ar nx true NTwo dbg b = Ok (norm2 nx (list_sum rl) (list_sum cl) g).
Proof. intros F D ar nx SD NX S0 dbg b rl cl g. exact (norm_blocked_spec ar nx NX dbg b rl cl g S0). Qed.
Print Assumptions C42_norm_of_blocked.

(** *** Witnesses *)
Definition znx : nops Z Z := {| absF := Z.abs; sqF := fun x => (x * x)%Z; sqD := fun x => (x * x)%Z; sqrtD := Z.sqrt |}.
Lemma znx_exact : nexact zar znx.
Proof. constructor; try reflexivity. exact zar_exact. Qed.
Lemma zar_linear : linear zar.
Proof.
  constructor; cbn.
  - intros x. apply Z.ltb_irrefl.
  - intros x y z. rewrite !Z.ltb_lt. lia.
  - intros x y. rewrite !Z.ltb_lt. lia.
  - intros x y. apply Z.leb_antisym.
Qed.
Lemma zar_kok k : k_ok zar znx k.
Proof.
  destruct k; cbn; auto. split; [exact zar_linear|]. intros x. unfold le, lt. cbn. rewrite Z.ltb_lt. lia.
Qed.

(** [demoS] is [[1 0 2] [0 3 0]], [two demoS demoC] is that plus [demoC]. *)
Example C42_nonvacuous :
  nexact zar znx /\ (forall k, k_ok zar znx k) /\
  rep_leaf zar (LSd demoS) 2 3 (fun i j => dflt 0%Z (demoS_f i j)) /\ compact demoS /\
  norm_leaf zar znx NOne (LSd demoS) = Ok 6%Z /\ norm_leaf zar znx NMax (LSd demoS) = Ok 3%Z /\
  norm1 zar 2 3 (fun i j => dflt 0%Z (demoS_f i j)) = 6%Z /\
  rep zar (two demoS demoC) 2 3 demo_sum /\ normable (two demoS demoC) /\
  norm_dyn zar znx NTwo true (two demoS demoC) = Ok 12%Z /\ sumsq znx 2 3 demo_sum = 149%Z.
Proof.
  split; [exact znx_exact|]. split; [exact zar_kok|].
  split; [split; [reflexivity|]; exists demoS_f; split; [exact demoS_mat|]; reflexivity|].
  split; [reflexivity|]. split; [reflexivity|]. split; [reflexivity|]. split; [reflexivity|].
  split; [exact two_rep|]. split; [exact I|]. split; vm_compute; reflexivity.
Qed.

(** Blocks [[3 0] [4 0]] (dense) and [[0] [12]] (sparse): norms 5 and 12, total 13. *)
Definition nb_dense : dense Z := mkDense (own_shape ColMajor 2 2) 4 (map Some [3; 4; 0; 0]%Z) true.
Definition nb_sparse : sparse Z := mkSparse ColMajor 2 1 2 (map Some [12]%Z) (map Some [1]) (map Some [0; 1]).
Definition nb : blocked Z Z := mkBlocked (mkDense (own_shape ColMajor 1 2) 2
  (map Some [Some (DL (LDd nb_dense)); Some (DL (LSd nb_sparse))]) true) 2 3.
Definition nb_g (i j : nat) : Z := match i, j with 0, 0 => 3%Z | 1, 0 => 4%Z | 1, 2 => 12%Z | _, _ => 0%Z end.
Lemma nb_rep : rep_blocked zar nb [2] [2; 1] nb_g.
Proof.
  split; [reflexivity|]. split; [reflexivity|]. split; [reflexivity|].
  exists (fun _ J => match J with 0 => Some (DL (LDd nb_dense)) | _ => Some (DL (LSd nb_sparse)) end). split.
  - split; [repeat split; reflexivity|]. split; [reflexivity|]. split; [reflexivity|].
    intros [|i] [|[|j]] Hi Hj; try (cbn in *; lia); reflexivity.
  - intros [|I'] [|[|J]] HI HJ; try (cbn in *; lia).
    + exists (DL (LDd nb_dense)). split; [reflexivity|]. split; [cbn; tauto|]. split; [reflexivity|].
      split; [repeat split; reflexivity|]. split; [reflexivity|]. split; [reflexivity|].
      intros [|[|i]] [|[|j]] Hi Hj; try (cbn in *; lia); reflexivity.
    + exists (DL (LSd nb_sparse)). split; [reflexivity|]. split; [cbn; tauto|]. split; [reflexivity|].
      exists (fun i j => match i with 1 => Some 12%Z | _ => None end). split.
      * apply sp_mat_lines. repeat split. exists [[(1, 12%Z)]]. split; [|split; [reflexivity|split]].
        -- split; [reflexivity|]. exists [], []. repeat split.
        -- repeat constructor.
        -- intros [|[|i]] [|j] Hi Hj; cbn in Hi, Hj; try lia; reflexivity.
      * intros [|[|i]] [|j] Hi Hj; cbn in Hi, Hj; try lia; reflexivity.
Qed.
Example C42_blocked_nonvacuous :
  rep_blocked zar nb [2] [2; 1] nb_g /\
  (forall I J d, I < 1 -> J < 2 -> dget true (b_mat nb) I J = Ok (Some d) -> normable d) /\
  (forall I J, I < 1 -> J < 2 ->
     let q := sumsq znx (nth I [2] 0) (nth J [2; 1] 0) (fun i j => nb_g (offs [2] I + i) (offs [2; 1] J + j)) in
     sqD znx (sqrtD znx q) = q) /\
  norm_blocked zar znx true NTwo true nb = Ok 13%Z /\ norm2 znx 2 3 nb_g = 13%Z.
Proof.
  split; [exact nb_rep|]. split; [|split; [|split; vm_compute; reflexivity]].
  - intros [|I'] [|[|J]] d HI HJ E; try lia; vm_compute in E; injection E as <-; [exact I|reflexivity].
  - intros [|I'] [|[|J]] HI HJ; try lia; vm_compute; reflexivity.
Qed.

(** *** Where the claim fails *)
(** A sum of sparse matrices keeps an array of rows * columns cells: its norm
    reads cells that were never written.  So does the norm of a matrix in two
    sparse parts, one of the listed types. *)
Theorem C42_sparse_sum_refuted :
  exists s, bin_leaf zar Plus true (LSd demoS) (LSd demoS) = Ok (LSd s) /\
    sp_mat s 2 3 (fun i j => option_map (fun x => 2 * x)%Z (demoS_f i j)) /\
    (forall k, norm_leaf zar znx k (LSd s) = UB UninitRead) /\
    (forall k, norm_dyn zar znx k true (DM (TS ED) (TS EF) (Some (LSd demoS)) (Some (LSf demoS))) = UB UninitRead) /\
    In (TM (TS ED) (TS EF)) type_list.
Proof.
  assert (E : exists s, bin_leaf zar Plus true (LSd demoS) (LSd demoS) = Ok (LSd s)) by (eexists; vm_compute; reflexivity).
  destruct E as (s & E). exists s. split; [exact E|]. vm_compute in E. injection E as <-. split; [|split; [|split]].
  - apply sp_mat_lines. repeat split.
    exists [[(0, 2%Z)]; [(1, 6%Z)]; [(0, 4%Z)]]. split; [|split; [reflexivity|split]].
    + split; [reflexivity|]. exists [None; None; None], [None; None; None]. repeat split.
    + repeat constructor.
    + intros [|[|i]] [|[|[|j]]] Hi Hj; cbn in Hi, Hj; try lia; reflexivity.
  - intros []; vm_compute; reflexivity.
  - intros []; vm_compute; reflexivity.
  - cbn; tauto.
Qed.
Print Assumptions C42_sparse_sum_refuted.

(** Norm-one of a two-part matrix is that of twice its first part. *)
Theorem C42_two_part_norm_one_refuted :
  rep zar (two demoS demoC) 2 3 demo_sum /\ norm1 zar 2 3 demo_sum = 27%Z /\
  forall t d, norm_dyn zar znx NOne true (DM t (TD EF) (Some (LDd demoC)) (Some (LDf d))) = Ok 42%Z.
Proof. split; [exact two_rep|]. split; [vm_compute; reflexivity|]. intros t d. vm_compute. reflexivity. Qed.
Print Assumptions C42_two_part_norm_one_refuted.
