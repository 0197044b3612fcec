(** C15 (stale element counts), C40, C41, C54 (column-major matrices), exactly. *)
From Coq Require Import NArith.
From Verif Require Import Base BaseLemmas Dense_Model Dense_Spec Dense_Proofs Dense2_Proofs Sparse_Model Sparse_Spec Sparse_Proofs
  Sparse2_Proofs Bsg_Model Bsg_Spec Bsg_Proofs Bsg2_Proofs Mult_Spec Dense_Props Sparse_Props Bsg_Props Exact_Props.

Lemma foldM_ok_or_idx {X St} (f : X -> St -> res St) u l : forall (P : nat -> St -> Prop) s, P 0 s ->
  (forall k x s, nth_error l k = Some x -> P k s -> (exists s', f x s = Ok s' /\ P (S k) s') \/ f x s = UB u) ->
  (exists s', foldM f l s = Ok s' /\ P (length l) s') \/ foldM f l s = UB u.
Proof.
  induction l as [|x t IH]; intros P s H0 Hs; cbn [foldM]; [left; eauto|].
  destruct (Hs 0 x s eq_refl H0) as [(s' & E & H1)|E]; rewrite E; cbn [bind]; [|now right].
  apply (IH (fun k => P (S k)) s' H1). intros k y s2 Hk. apply (Hs (S k)). exact Hk.
Qed.

Lemma count2_S a b p : count2 (S a) b p = count2 a b p + length (filter (p a) (seq 0 b)).
Proof.
  unfold count2. rewrite seq_S, flat_map_app, filter_app, app_length. cbn [flat_map plus]. rewrite app_nil_r. f_equal.
  generalize (seq 0 b) as l. induction l as [|k l IH]; [reflexivity|]. cbn [map filter]. destruct (p a k); cbn [length]; now rewrite IH.
Qed.

Lemma too_few {T U} (cv : T -> U) (chk : T -> bool) o nnz (d : dense T) (g : nat -> nat -> T) A :
  let minor := match o with RowMajor => d_rows d | ColMajor => d_cols d end in
  let maj := match o with RowMajor => d_cols d | ColMajor => d_rows d end in
  let dirs := if orient_eqb o (d_orient d) then (DCol, DRow) else (DRow, DCol) in
  (forall l, l < minor -> cur_addrs (d_sh d) (fst dirs) (snd dirs) l = Ok (map (A l) (seq 0 maj))) ->
  (forall l k, l < minor -> k < maj -> rd (d_buf d) (A l k) = Ok (g l k)) ->
  nnz < count2 minor maj (fun l k => chk (g l k)) ->
  s_of_dense_nnz cv chk o nnz d = UB OOBWrite.
Proof.
  intros minor maj dirs HA Hg Hcnt. unfold s_of_dense_nnz. fold minor. fold dirs.
  destruct dirs as [d1 d2] eqn:Ed. cbn [fst snd] in HA.
  unfold forM.
  match goal with |- context [foldM ?f ?ls ?s] =>
    destruct (foldM_ok_or_idx f OOBWrite ls (fun l (st : buf U * buf nat * buf nat * nat) => let '(vs, ks, offs, n) := st in
      length vs = nnz /\ length ks = nnz /\ length offs = minor + 1 /\ n <= nnz /\ n = count2 l maj (fun l k => chk (g l k))) s)
      as [(st & E & HP)|E] end.
  - rewrite !alloc_length. repeat split; lia.
  - intros l l' [[[vs ks] offs] n] Hl (Lv & Lk & Lo & Ln & En).
    rewrite nth_error_seq in Hl. destruct (Nat.ltb_spec l minor) as [Hlm|]; [|discriminate]. cbn in Hl. injection Hl as <-.
    rewrite wr_ok by lia. cbn [bind]. rewrite HA by exact Hlm. cbn [bind].
    rewrite enum_map_seq, foldM_map.
    match goal with |- context [foldM ?f (seq 0 maj) ?s] =>
      destruct (foldM_ok_or_idx f OOBWrite (seq 0 maj) (fun k (st : buf U * buf nat * nat) => let '(vs, ks, m) := st in
        length vs = nnz /\ length ks = nnz /\ m <= nnz /\ m = n + length (filter (fun k => chk (g l k)) (seq 0 k))) s)
        as [(st & E & HP)|E] end.
    + cbn [seq filter length]. repeat split; auto.
    + intros k k' [[vs1 ks1] m] Hk (L1 & L2 & Lm & Em).
      rewrite nth_error_seq in Hk. destruct (Nat.ltb_spec k maj) as [Hkm|]; [|discriminate]. cbn in Hk. injection Hk as <-.
      rewrite Hg by assumption. cbn [bind].
      assert (Fs : length (filter (fun k => chk (g l k)) (seq 0 (S k))) =
                   length (filter (fun k => chk (g l k)) (seq 0 k)) + (if chk (g l k) then 1 else 0)).
      { rewrite seq_S, filter_app, app_length. cbn [filter plus]. now destruct (chk (g l k)). }
      destruct (chk (g l k)).
      * destruct (Nat.lt_ge_cases m nnz) as [Hm|Hm].
        -- left. rewrite wr_ok by lia. cbn [bind]. rewrite wr_ok by lia. cbn [bind]. eexists. split; [reflexivity|].
           cbn beta iota. rewrite !upd_length. repeat split; auto; lia.
        -- right. unfold wr, wrc. destruct (Nat.ltb_spec m (length vs1)); [lia|reflexivity].
      * left. eexists. split; [reflexivity|]. repeat split; auto; lia.
    + rewrite E. destruct st as [[vs1 ks1] m]. cbn [bind]. left. eexists. split; [reflexivity|].
      destruct HP as (L1 & L2 & Lm & Em). rewrite seq_length in Em. cbn beta iota. rewrite upd_length, count2_S. repeat split; auto. lia.
    + rewrite E. now right.
  - exfalso. destruct st as [[[vs ks] offs] n]. rewrite seq_length in HP. destruct HP as (_ & _ & _ & H1 & H2). lia.
  - rewrite E. reflexivity.
Qed.

(** A dense matrix converted with an element count found before: if fewer
    elements were counted than are accepted now, the conversion writes outside
    its arrays; otherwise the result is right (with unused cells). *)
Theorem C15_stale_count_exact :
  forall (T U : Type) (cv : T -> U) (chk : T -> bool) (o : orient) (d : dense T) r c f nnz,
    col_source d -> view d r c f ->
    (nnz < count2 r c (fun i j => chk (f i j)) -> s_of_dense_nnz cv chk o nnz d = UB OOBWrite) /\
    (count2 r c (fun i j => chk (f i j)) <= nnz -> exists s, s_of_dense_nnz cv chk o nnz d = Ok s /\ s_o s = o /\
       s_nnz s = nnz /\ sp_mat s r c (fun i j => if chk (f i j) then Some (cv (f i j)) else None)).
Proof.
  intros T U cv chk o d r c f nnz HS Hv. destruct (col_source_ok d HS) as (Hok & Hit & Ho). split.
  2:{ intros H. now apply s_of_dense_spec. }
  intros H. pose proof Hv as (Hr & Hc & _). pose proof Hok as (Hl1 & Hl2 & Hin). unfold d_rows, d_cols in *.
  destruct o.
  - apply (too_few cv chk RowMajor nnz d f (addr (d_sh d))).
    + intros l Hl. rewrite Ho. simpl. apply cur_rc; auto.
    + intros l k Hl Hk. apply rd_ok. eapply view_cell; eauto; unfold d_rows, d_cols in *; lia.
    + unfold d_rows, d_cols. rewrite Hr, Hc. auto.
  - apply (too_few cv chk ColMajor nnz d (fun j i => f i j) (fun j i => addr (d_sh d) i j)).
    + intros l Hl. rewrite Ho. simpl. apply cur_cr; auto.
    + intros l k Hl Hk. apply rd_ok. eapply view_cell; eauto; unfold d_rows, d_cols in *; lia.
    + unfold d_rows, d_cols. rewrite Hr, Hc. rewrite (count2_swap r c (fun i j => chk (f i j))). auto.
Qed.
Print Assumptions C15_stale_count_exact.
Example C15_stale_count_exact_nonvacuous :
  col_source demoC /\ view demoC 2 3 demoC_f /\ count2 2 3 (fun i j => demoC_chk (demoC_f i j)) = 3 /\
  s_of_dense_nnz (fun x => x) demoC_chk ColMajor 2 demoC = UB OOBWrite.
Proof.
  split; [|split; [exact (proj2 demoC_mat)|split; reflexivity]].
  apply src_mat; [exact (proj1 demoC_mat)|reflexivity].
Qed.

(** ** C41 *)
(** The profile of a column-major matrix is that of the matrix found by cutting
    its elements, taken column by column, into rows of the length of the number
    of columns. *)
Theorem C41_profile_column_major_exact :
  forall (T : Type) (bn : bnum T) (d : dense T) r c f,
    is_mat d r c f -> d_orient d = ColMajor -> 1 <= r -> 1 <= c ->
    let e i j := b_exp bn (f ((i * c + j) mod r) ((i * c + j) / r)) in
    detection bn d = Ok (map (row_profile bn c e) (seq 0 (r - 1)), map (col_profile bn r e) (seq 0 (c - 1))).
Proof.
  intros T bn d r c f M O Lr Lc. pose proof (detection_any bn d r c f M Lr Lc) as H. rewrite O in H. exact H.
Qed.
Print Assumptions C41_profile_column_major_exact.
Example C41_profile_column_major_exact_nonvacuous :
  is_mat cm23 2 3 (fun i _ => Z.of_nat i) /\ d_orient cm23 = ColMajor /\ detection zbn cm23 = Ok ([3], [2; 2])%Z.
Proof.
  split; [|split; reflexivity]. split; [repeat split; reflexivity|]. split; [reflexivity|]. split; [reflexivity|].
  intros [|[|i]] [|[|[|j]]] Hi Hj; try lia; reflexivity.
Qed.

(** ** C54 for column-major matrices: the cuts follow that wrong profile. *)
Theorem C54_column_major_cuts :
  forall (T : Type) (bn : bnum T) (d : dense T) r c f mn mx ri ci a b, eq_consistent bn -> eq_refl_ok bn ->
    is_mat d r c f -> d_orient d = ColMajor -> 1 <= r -> 1 <= c -> mx < r \/ mx < c ->
    let e i j := b_exp bn (f ((i * c + j) mod r) ((i * c + j) / r)) in
    sorted_order bn (map (row_profile bn c e) (seq 0 (r - 1))) ri ->
    sorted_order bn (map (col_profile bn r e) (seq 0 (c - 1))) ci ->
    generate bn mn mx d ri ci = Ok (a, b) ->
    cuts_at_largest bn a (r - 1) (row_profile bn c e) /\ cuts_at_largest bn b (c - 1) (col_profile bn r e).
Proof.
  intros T bn d r c f mn mx ri ci a b HC HR M O Lr Lc Lx e S1 S2 E. unfold generate in E. pose proof M as [_ (Hr & Hc & _)].
  rewrite Hr, Hc in E. assert (Q : (r <=? mx) && (c <=? mx) = false) by (apply andb_false_iff; rewrite !Nat.leb_gt; exact Lx).
  rewrite Q, (C41_profile_column_major_exact T bn d r c f M O Lr Lc) in E. cbn [bind fst snd] in E.
  apply bind_ok in E as (a' & E1 & E). apply bind_ok in E as (b' & E2 & E). injection E as <- <-.
  split; eapply cuts_map; eauto.
Qed.
Print Assumptions C54_column_major_cuts.
(** Square: rows and columns exchange their roles, so that the rows are cut
    where the columns change. *)
Theorem C54_square_column_major_cuts :
  forall (T : Type) (bn : bnum T) (d : dense T) n f mn mx ri ci a b, eq_consistent bn -> eq_refl_ok bn ->
    is_mat d n n f -> d_orient d = ColMajor -> 1 <= n -> mx < n ->
    let e i j := b_exp bn (f j i) in
    sorted_order bn (map (row_profile bn n e) (seq 0 (n - 1))) ri ->
    sorted_order bn (map (col_profile bn n e) (seq 0 (n - 1))) ci ->
    generate bn mn mx d ri ci = Ok (a, b) ->
    cuts_at_largest bn a (n - 1) (row_profile bn n e) /\ cuts_at_largest bn b (n - 1) (col_profile bn n e).
Proof.
  intros T bn d n f mn mx ri ci a b HC HR M O L Lx e S1 S2 E. unfold generate in E. pose proof M as [_ (Hr & Hc & _)].
  rewrite Hr, Hc in E. assert (Q : (n <=? mx) && (n <=? mx) = false) by (apply andb_false_iff; rewrite !Nat.leb_gt; auto).
  rewrite Q, (C41_profile_square_column_major T bn d n f M O L) in E. cbn [bind fst snd] in E.
  apply bind_ok in E as (a' & E1 & E). apply bind_ok in E as (b' & E2 & E). injection E as <- <-.
  split; eapply cuts_map; eauto.
Qed.
Print Assumptions C54_square_column_major_cuts.

(** ** C40: the constructor, for all arguments: twice the minimum is computed
    modulo 2^64. *)
Theorem C40_constructor_exact :
  forall mn mx, bsg_new mn mx = if (((2 * mn) mod 2 ^ 64) <=? mx)%N then Ok (N.to_nat mn, N.to_nat mx) else Throw.
Proof.
  intros mn mx. unfold bsg_new. destruct (N.ltb_spec mx ((2 * mn) mod 2 ^ 64)), (N.leb_spec ((2 * mn) mod 2 ^ 64) mx); auto; lia.
Qed.
Print Assumptions C40_constructor_exact.
