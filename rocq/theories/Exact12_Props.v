(** C45, C47, C48, C49, C50: the defective cases, for all inputs. *)
From Coq Require Import String.
From Verif Require Import Base BaseLemmas Dense_Model Dense_Spec Dense_Proofs Dense2_Proofs Sparse_Model Sparse_Spec Mult_Spec
  Dyn_Model Dyn_Spec Dyn2_Proofs Conv_Spec Norm_Model Norm_Spec Norm_Proofs IO_Proofs Check_Spec Text_Model Text_Spec Text_Proofs Tools_Model Tools_Spec
  Tools_Proofs Tools3_Proofs Tools2_Proofs Dense_Props Sparse_Props Mult_Props Dyn_Props Norm_Props Text_Props Tools_Props Exact_Props.
Open Scope nat_scope.
Open Scope list_scope.

(** ** C45 *)
(** Default settings: every picture has as many rows as the matrix, all empty. *)
Theorem C45_default_settings_exact :
  forall (T D : Type) (absT : T -> T) (ge : T -> D -> bool) (d : dense T) r c f, legal d -> view d r c f ->
    exists t, pattern_file absT ge true ps_default d = Ok (Some t) /\
      strings_of t = header (@ps_default D) r c :: color_text "" "" :: repeat EmptyString r.
Proof.
  intros T D absT ge d r c f L V.
  destruct (C45_picture T D absT ge ps_default d r c f L V) as (t & rows & E & S & Lr & G).
  { split; [|split]; [| |intros x []]; cbn; repeat split. }
  exists t. split; [exact E|]. rewrite S. cbn [ps_default ps_palette ps_bgi ps_bgc map app]. do 2 f_equal.
  apply nth_error_ext. intros i. destruct (Nat.lt_ge_cases i r) as [Hi|Hi].
  - destruct (G i Hi) as (px & Er & Hp). rewrite Er, nth_error_repeat by exact Hi. f_equal.
    assert (Q : forall j, In j (seq 0 c) -> px j = EmptyString).
    { intros j Hj. apply in_seq in Hj. destruct (Hp j ltac:(lia)) as [(k & c0 & Hk & _)|[_ ->]]; [|reflexivity].
      cbn in Hk. now destruct k. }
    revert Q. generalize (seq 0 c) as l. induction l as [|j l IH]; intros Q; [reflexivity|]. cbn [map cat].
    rewrite (Q j) by now left. cbn. apply IH. intros k Hk. apply Q. now right.
  - rewrite (proj2 (nth_error_None _ _)) by lia. symmetry. apply nth_error_None. rewrite repeat_length. lia.
Qed.
Print Assumptions C45_default_settings_exact.

(** Any picture for a file that cannot be opened: no report, nothing written. *)
Theorem C45_unwritable_file_exact :
  forall (T D : Type) (absT : T -> T) (ge : T -> D -> bool) (s : psettings D) (d : dense T) r c f,
    legal d -> view d r c f -> clean s -> pattern_file absT ge false s d = Ok None.
Proof.
  intros T D absT ge s d r c f L V C.
  destruct (C45_picture T D absT ge s d r c f L V C) as (t & rows & E & _).
  unfold pattern_file in *. destruct (pattern absT ge s d); cbn [bind] in *; congruence.
Qed.
Print Assumptions C45_unwritable_file_exact.

(** ** C47 *)
(** More rows than columns: every band of positive width fails at once. *)
Theorem C47_tall_exact :
  forall (D : Type) dbg (zero v : D) rows cols bw, cols < rows -> 1 <= bw ->
    band_matrix dbg zero rows cols bw v = if dbg then AssertFail else UB OOBWrite.
Proof.
  intros D dbg zero v rows cols bw Hc Hb. unfold band_matrix.
  destruct (all_filler_mat zero (d_new ColMajor rows cols) (d_new_wf _ _ _)) as (d0 & E0 & M0 & O0 & _).
  rewrite E0. cbn [bind]. change (d_orient (d_new ColMajor rows cols)) with ColMajor in O0. clear E0.
  change (d_rows (d_new ColMajor rows cols)) with rows in M0. change (d_cols (d_new ColMajor rows cols)) with cols in M0.
  unfold band_fill, forM at 1. destruct bw as [|bw]; [lia|]. cbn [seq foldM].
  assert (F : forM (wsub rows 0) (fun i d => do d <- dset dbg d (i + 0) i v; dset dbg d i (i + 0) v) d0 =
    if dbg then AssertFail else UB OOBWrite).
  2:{ rewrite F. now destruct dbg. }
  unfold wsub. cbn [Nat.leb]. rewrite Nat.sub_0_r. unfold forM.
  replace rows with (cols + S (rows - cols - 1)) at 1 by lia. rewrite seq_app. cbn [plus seq].
  destruct (foldM_inv (fun i d => do d <- dset dbg d (i + 0) i v; dset dbg d i (i + 0) v)
    (fun k d => (exists f, is_mat d rows cols f) /\ d_orient d = ColMajor) (seq 0 cols) d0) as (d1 & E1 & (f & M) & O).
  - split; eauto.
  - intros k i d Hk ((f & M) & O). rewrite nth_error_seq in Hk. destruct (Nat.ltb_spec k cols); [|discriminate].
    cbn in Hk. injection Hk as <-. rewrite Nat.add_0_r.
    destruct (is_mat_dset dbg d rows cols f k k v M ltac:(lia) ltac:(lia)) as (d2 & E2 & M2 & O2 & _). rewrite E2. cbn [bind].
    destruct (is_mat_dset dbg d2 rows cols _ k k v M2 ltac:(lia) ltac:(lia)) as (d3 & E3 & M3 & O3 & _). rewrite E3.
    eexists. split; [reflexivity|]. split; [eauto|congruence].
  - rewrite foldM_app, E1. cbn [bind foldM]. rewrite Nat.add_0_r.
    pose proof M as [(Hs & Hb0 & Hl) (Hr & Hc0 & _)]. unfold d_rows, d_cols, d_orient in *.
    unfold dset at 1, position, cassert. rewrite Hr, Hc0, Hb0. destruct dbg; cbn [andb].
    + destruct (Nat.ltb_spec cols rows); [|lia]. rewrite Nat.ltb_irrefl. reflexivity.
    + cbn [bind]. rewrite O. unfold getLdRows. rewrite Hs, Hr. unfold wr, wrc. rewrite Hl, Hr, Hc0.
      destruct (Nat.ltb_spec (0 + (cols + cols * rows)) (rows * cols)); [nia|]. reflexivity.
Qed.
Print Assumptions C47_tall_exact.

(** ** C49 *)
(** The two matrices are compared element by element in storage order, whatever
    their orientations and dimensions; if the second one has fewer elements, its
    memory is left. *)
Theorem C49_storage_order_exact :
  forall (A B D : Type) (zero : D) (diff : A -> B -> D) (absd sq root : D -> D) (lt : D -> D -> bool) (add : D -> D -> D) (divn : D -> nat -> D)
    (a : dense A) (b : dense B) ra ca fa rb cb fb,
    view a ra ca fa -> view b rb cb fb -> iterable a -> iterable b ->
    let pairs := combine (in_storage_order (d_orient a) ra ca fa) (in_storage_order (d_orient b) rb cb fb) in
    (ra * ca <= rb * cb ->
       max_deviation zero diff absd lt (dense_cells a) (dense_cells b) =
         Ok (fold_left (fun s p => let x := absd (diff (fst p) (snd p)) in if lt s x then x else s) pairs zero) /\
       rms_deviation zero diff sq add root divn (d_rows a) (d_cols a) (dense_cells a) (dense_cells b) =
         Ok (root (divn (fold_left (fun s p => add s (sq (diff (fst p) (snd p)))) pairs zero) (ra * ca)))) /\
    (rb * cb < ra * ca ->
       max_deviation zero diff absd lt (dense_cells a) (dense_cells b) = UB OOBRead /\
       rms_deviation zero diff sq add root divn (d_rows a) (d_cols a) (dense_cells a) (dense_cells b) = UB OOBRead).
Proof.
  intros A B D zero diff absd sq root lt add divn a b ra ca fa rb cb fb Va Vb Ia Ib pairs.
  unfold max_deviation, rms_deviation.
  rewrite (dense_cells_ok a ra ca fa Va Ia), (dense_cells_ok b rb cb fb Vb Ib). cbn [bind].
  split; intros H.
  - rewrite !dev_loop_ok by (now rewrite !storage_length). cbn [bind]. pose proof Va as (-> & -> & _). split; reflexivity.
  - assert (G : forall acc, dev_loop zero diff acc (map Some (in_storage_order (d_orient a) ra ca fa))
        (map Some (in_storage_order (d_orient b) rb cb fb)) = UB OOBRead); [|rewrite !G; split; reflexivity].
    intros acc. unfold dev_loop. apply (foldM_fails _ (fun _ => True)); auto.
    + intros [k x] s Hin _. apply In_enum in Hin. rewrite nth_error_map in Hin.
      destruct (nth_error (in_storage_order (d_orient a) ra ca fa) k) as [y|]; [|discriminate]. injection Hin as <-. cbn [val bind].
      rewrite nth_error_map. destruct (nth_error (in_storage_order (d_orient b) rb cb fb) k); cbn [option_map val bind]; eauto.
    + set (xs := in_storage_order (d_orient a) ra ca fa). assert (Lx : length xs = ra * ca) by apply storage_length.
      destruct (nth_error xs (rb * cb)) as [x|] eqn:Ex; [|apply nth_error_None in Ex; lia].
      exists (rb * cb, Some x). split.
      * unfold enum. rewrite map_length. apply nth_error_In with (rb * cb).
        assert (Q : forall n (l : list (option A)) s k y, nth_error l k = Some y -> k < n -> nth_error (combine (seq s n) l) k = Some (s + k, y)).
        { induction n as [|n IH]; intros l s k y; [lia|]. destruct l as [|z l]; [now destruct k|]. destruct k as [|k]; cbn.
          - intros [= ->] _. now rewrite Nat.add_0_r.
          - intros Hk Hn. rewrite (IH l (S s) k y Hk) by lia. now rewrite <- plus_n_Sm. }
        rewrite (Q (length xs) (map Some xs) 0 (rb * cb) (Some x)); [reflexivity| |lia]. now rewrite nth_error_map, Ex.
      * intros s _. cbn [val bind].
        rewrite (proj2 (nth_error_None _ _)); [reflexivity|]. rewrite map_length, storage_length. lia.
Qed.
Print Assumptions C49_storage_order_exact.
Example C49_storage_order_exact_nonvacuous :
  view demoC 2 3 demoC_f /\ view demoC_row 2 3 demoC_f /\ iterable demoC /\ iterable demoC_row /\
  combine (in_storage_order (d_orient demoC) 2 3 demoC_f) (in_storage_order (d_orient demoC_row) 2 3 demoC_f) =
    [(1, 1); (4, 2); (2, 3); (5, 4); (3, 5); (6, 6)]%Z.
Proof.
  destruct C49_orientation_refuted as (M1 & M2 & _). split; [apply M1|]. split; [apply M2|]. split; [left; apply M1|].
  split; [left; apply M2|]. vm_compute. reflexivity.
Qed.

(** A sparse operand is represented by its value array. *)
Theorem C49_sparse_exact :
  forall (A B D : Type) (zero : D) (diff : A -> B -> D) (absd : D -> D) (lt : D -> D -> bool)
    (a : dense A) r c fa (xs : list B) (s : sparse B),
    view a r c fa -> iterable a -> s_val s = map Some xs -> length xs < r * c ->
    max_deviation zero diff absd lt (dense_cells a) (sparse_cells s) = UB OOBRead.
Proof.
  intros A B D zero diff absd lt a r c fa xs s Va Ia Es H.
  (* the same as a dense 1 x n matrix holding the values *)
  set (b := mkDense (own_shape ColMajor 1 (length xs)) (length xs) (map Some xs) true).
  destruct xs as [|x0 xs'] eqn:Exs.
  - unfold max_deviation. rewrite (dense_cells_ok a r c fa Va Ia). cbn [bind sparse_cells]. rewrite Es. cbn [map].
    pose proof (storage_length (d_orient a) r c fa) as L. destruct (in_storage_order (d_orient a) r c fa) as [|y l]; [cbn in *; lia|].
    reflexivity.
  - assert (Mb : is_mat b 1 (length (x0 :: xs')) (fun _ j => nth j (x0 :: xs') x0)).
    { apply mat_of_buf; try reflexivity. cbn [d_buf b]. f_equal. unfold in_storage_order, b. cbn [d_orient d_sh own_shape sh_o].
      set (l := x0 :: xs'). rewrite (list_nth_seq l x0) at 1. cbn [seq map]. generalize (seq 0 (length l)) as q.
      induction q as [|k q IH]; [reflexivity|]. cbn [map flat_map app]. now rewrite <- IH. }
    pose proof (C49_storage_order_exact A B D zero diff absd absd absd lt (fun x _ => x) (fun x _ => x) a b r c fa 1 (length (x0 :: xs'))
      (fun _ j => nth j (x0 :: xs') x0) Va (proj2 Mb) Ia (or_introl (proj1 Mb))) as [_ G].
    destruct (G ltac:(lia)) as [G1 _]. unfold max_deviation in *. rewrite (dense_cells_ok a r c fa Va Ia) in *. cbn [bind sparse_cells] in *.
    rewrite (dense_cells_ok b _ _ _ (proj2 Mb) (or_introl (proj1 Mb))) in G1. cbn [bind] in G1.
    rewrite <- (buf_of_mat b _ _ _ Mb) in G1. cbn [b d_buf] in G1. now rewrite Es.
Qed.
Print Assumptions C49_sparse_exact.

(** ** C50 *)
(** Every type name that is not one of the three is skipped. *)
Theorem C50_unknown_type_exact :
  forall (D : Type) dbg (zero : D) rf name type nd (m : mset D),
    ~ In type ["DiagonalBand"; "EqualTo"; "File"]%string -> mp_entry dbg zero rf name type nd m = Ok m.
Proof.
  intros D dbg zero rf name type nd m H. unfold mp_entry. cbn in H.
  destruct (String.eqb_spec type "DiagonalBand") as [->|]; [tauto|].
  destruct (String.eqb_spec type "EqualTo") as [->|]; [tauto|].
  destruct (String.eqb_spec type "File") as [->|]; [tauto|]. reflexivity.
Qed.
Print Assumptions C50_unknown_type_exact.
Example C50_unknown_type_exact_nonvacuous : ~ In "Band"%string ["DiagonalBand"; "EqualTo"; "File"]%string.
Proof. intros [H|[H|[H|[]]]]; discriminate. Qed.

(** The start of the benchmark is undefined exactly if the settings define no
    matrices A or no matrices B. *)
Theorem C50_missing_exact :
  forall (D A : Type) (m : mset D) (actions : list A),
    (exists u, bench_setup m actions = UB u) <-> ms_find m "A" = None \/ ms_find m "B" = None.
Proof.
  intros D A m actions. unfold bench_setup, mp_get.
  destruct (ms_find m "A") as [la|]; cbn [bind]; [|split; eauto].
  destruct (ms_find m "B") as [lb|]; cbn [bind]; [|split; eauto].
  split; [|intros [H|H]; discriminate]. intros (u & E). exfalso.
  destruct (length la =? 0); [discriminate|]. destruct (negb _); [discriminate|]. destruct (length actions =? 0); discriminate.
Qed.
Print Assumptions C50_missing_exact.

(** ** C48 *)
Lemma foldM_bad {X St} (f : X -> St -> res St) (Inv : St -> Prop) (bad : res St) l :
  (forall k : St -> res St, bind bad k = bad) -> forall s, Inv s ->
  (forall x s, In x l -> Inv s -> (exists s', f x s = Ok s' /\ Inv s') \/ f x s = bad) ->
  (exists x, In x l /\ forall s, Inv s -> f x s = bad) -> foldM f l s = bad.
Proof.
  intros HB. induction l as [|x t IH]; intros s Hs Hall (y & Hy & Hf); [destruct Hy|]. cbn [foldM].
  destruct (Hall x s (or_introl eq_refl) Hs) as [(s' & E & Hs')|E].
  - destruct Hy as [<- | Hy]; [rewrite (Hf s Hs), HB; reflexivity|].
    rewrite E. cbn [bind]. apply IH; auto; [|eauto]. intros z s2 Hz. apply Hall. now right.
  - rewrite E. apply HB.
Qed.

(** Whether a block has two parts. *)
Definition two_part {F D} (d : dyn F D) : bool := match d with DM _ _ _ _ => true | DL _ => false end.

(** Blocks in two parts: reported if failures are (as an exception, or an
    assertion), else 0 is entered for them; the other entries are right. *)
Theorem C48_norm_matrix_exact :
  forall (F D : Type) (ar : arith F D) (nx : nops F D) (SD : Scalar D), nexact ar nx -> sqrtD nx s0 = s0 ->
  forall exc dbg (b : blocked F D) rl cl g, rep_blocked ar b rl cl g ->
    (forall I J d, I < length rl -> J < length cl -> dget true (b_mat b) I J = Ok (Some d) ->
       two_part d = true \/ exists l, d = DL l /\ l_compact l) ->
    ((exists I J d, I < length rl /\ J < length cl /\ dget true (b_mat b) I J = Ok (Some d) /\ two_part d = true) ->
       exc || dbg = true -> generateNormMatrix ar nx exc dbg b = if exc then Throw else AssertFail) /\
    (exc || dbg = false -> exists t, generateNormMatrix ar nx exc dbg b = Ok t /\ full_ok t /\
       is_mat t (length rl) (length cl) (fun I J =>
         match dget true (b_mat b) I J with
         | Ok (Some (DM _ _ _ _)) => s0
         | _ => norm2 nx (nth I rl 0) (nth J cl 0) (fun i j => g (offs rl I + i) (offs cl J + j))
         end)).
Proof.
  intros F D ar nx SD X S0 exc dbg b rl cl g R HL. destruct (rep_blocked_blocks ar b rl cl g R) as (O & f & M & B).
  pose proof M as [_ (_ & _ & HG)].
  assert (N : forall i j, i < length rl -> j < length cl ->
    norm_of_ptr ar nx exc dbg (Some (f i j)) =
    if two_part (f i j) then (do _ <- core_failure exc dbg; Ok s0)
    else Ok (norm2 nx (nth i rl 0) (nth j cl 0) (fun i' j' => g (offs rl i + i') (offs cl j + j')))).
  { intros i j Hi Hj. destruct (B i j Hi Hj) as [T R']. unfold norm_of_ptr. rewrite exec_member_ok by auto.
    destruct (HL i j (f i j) Hi Hj (HG i j Hi Hj)) as [H2|(l & El & Cl)].
    - rewrite H2. destruct (f i j); [discriminate|]. now rewrite (ex_d0 ar (nx_exact ar nx X)).
    - rewrite El in *. cbn [rep two_part] in *. destruct (norm_leaf_spec ar nx X NTwo l _ _ _ S0 R' Cl) as (v & Ev & Hv).
      cbn [is_norm] in Hv. now rewrite Ev, Hv. }
  split.
  - intros (I & J & d & HI & HJ & Ed & H2) He.
    assert (HB : core_failure exc dbg = if exc then Throw else AssertFail).
    { unfold core_failure, cassert. destruct exc; [reflexivity|]. now destruct dbg. }
    unfold generateNormMatrix, gen_matrix. rewrite (own_iter _ _ _ _ M). cbn [bind]. rewrite enum_map_seq, foldM_map.
    pose proof M as [W (Hr & Hc & _)]. rewrite Hr, Hc. set (r := length rl) in *. set (c := length cl) in *.
    set (bad := if exc then @Throw (dense D) else AssertFail).
    apply (foldM_bad _ (fun t => length (d_buf t) = r * c) bad).
    + intros k. unfold bad. now destruct exc.
    + apply repeat_length.
    + intros k t Hk Lt. apply in_seq in Hk. destruct (order_nth ColMajor r c k ltac:(lia)) as (i & j & Eo & Hi & Hj).
      rewrite (own_rdz _ _ _ _ k M i j) by (now rewrite O). cbn [bind]. rewrite N by auto. destruct (two_part (f i j)).
      * right. rewrite HB. unfold bad. now destruct exc.
      * left. cbn [bind]. rewrite wr_ok by lia. cbn [bind]. eexists. split; [reflexivity|]. cbn [with_buf d_buf]. now rewrite upd_length.
    + exists (lin ColMajor r c I J). assert (HK : lin ColMajor r c I J < r * c) by (unfold lin; nia).
      split; [apply in_seq; lia|]. intros t _.
      destruct (order_nth ColMajor r c _ HK) as (i & j & Eo & Hi & Hj).
      assert (i = I /\ j = J) as [-> ->].
      { assert (Q : nth_error (map (fun p => lin ColMajor r c (fst p) (snd p)) (order ColMajor r c)) (lin ColMajor r c I J) = Some (lin ColMajor r c i j)).
        { now rewrite nth_error_map, Eo. }
        rewrite order_lin, nth_error_seq in Q. destruct (_ <? _); [|discriminate]. injection Q as Q. unfold lin in Q.
        cbn [plus] in Q. clear - Q Hi HI.
        destruct (Nat.div_mod_unique r j J i I Hi HI) as [-> ->]; [lia|auto]. }
      rewrite (own_rdz _ _ _ _ _ M I J) by (now rewrite O). cbn [bind]. rewrite N by auto.
      pose proof (HG I J HI HJ) as Eg. rewrite Ed in Eg. injection Eg as <-. rewrite H2, HB. unfold bad. now destruct exc.
  - intros He. apply orb_false_iff in He as [-> ->].
    destruct (gen_matrix_ok (norm_of_ptr ar nx false false) b _ _ f (fun I J =>
        match dget true (b_mat b) I J with
         | Ok (Some (DM _ _ _ _)) => s0
         | _ => norm2 nx (nth I rl 0) (nth J cl 0) (fun i j => g (offs rl I + i) (offs cl J + j))
         end) M O) as (t & E & Mt & _ & Ft & _).
    + intros i j Hi Hj. rewrite N by auto. rewrite (HG i j Hi Hj). now destruct (f i j).
    + eauto.
Qed.
Print Assumptions C48_norm_matrix_exact.

Definition mixed_block : blocked Z Z := mkBlocked (mkDense (own_shape ColMajor 1 1) 1 (map Some [Some (two demoS demoC)]) true) 2 3.
Example C48_norm_matrix_exact_nonvacuous :
  rep_blocked zar mixed_block [2] [3] demo_sum /\
  (exists d, dget true (b_mat mixed_block) 0 0 = Ok (Some d) /\ two_part d = true) /\
  generateNormMatrix zar znx true true mixed_block = Throw /\
  generateNormMatrix zar znx false true mixed_block = AssertFail /\
  exists t, generateNormMatrix zar znx false false mixed_block = Ok t /\ dget true t 0 0 = Ok 0%Z.
Proof.
  split.
  - split; [reflexivity|]. split; [reflexivity|]. split; [reflexivity|].
    exists (fun _ _ => Some (two demoS demoC)). split.
    + split; [repeat split; reflexivity|]. split; [reflexivity|]. split; [reflexivity|].
      intros [|i] [|j] Hi Hj; try (cbn in *; lia); reflexivity.
    + intros [|i] [|j] Hi Hj; try (cbn in *; lia). exists (two demoS demoC). split; [reflexivity|]. split; [cbn; tauto|].
      exact two_rep.
  - split; [eexists; split; vm_compute; reflexivity|]. split; [reflexivity|]. split; [reflexivity|].
    eexists. split; vm_compute; reflexivity.
Qed.
