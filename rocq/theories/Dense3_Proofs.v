(** Assembly of the lemmas used in Dense_Props.v. *)
From Verif Require Import Base BaseLemmas Dense_Model Dense_Spec Dense_Proofs Striped_Proofs Dense2_Proofs.

Lemma cell_in {T} dbg (d : dense T) i j : i < d_rows d -> j < d_cols d ->
  cell dbg d i j = Ok (addr (d_sh d) i j).
Proof.
  intros Hi Hj. unfold cell. destruct (position_in dbg (d_sh d) i j Hi Hj) as (p & E & Ea).
  rewrite E; cbn [bind]. now rewrite Ea.
Qed.

Lemma cell_spec (T : Type) (d : dense T) : legal d ->
    (forall dbg i j, i < d_rows d -> j < d_cols d ->
       exists a, cell dbg d i j = Ok a /\ a < length (d_buf d)) /\
    (forall dbg i j i' j' a,
       i < d_rows d -> j < d_cols d -> i' < d_rows d -> j' < d_cols d ->
       cell dbg d i j = Ok a -> cell dbg d i' j' = Ok a -> i = i' /\ j = j') /\
    (forall i j, ~ (i < d_rows d /\ j < d_cols d) -> cell true d i j = AssertFail).
Proof.
  intros Hl. pose proof (legal_ok d Hl) as Hok. repeat split.
  - intros dbg i j Hi Hj. exists (addr (d_sh d) i j). split; [now apply cell_in|]. now apply Hok.
  - rewrite cell_in in H3, H4 by auto. destruct (addr_inj (d_sh d) _ i j i' j' Hok); auto. congruence.
  - rewrite cell_in in H3, H4 by auto. destruct (addr_inj (d_sh d) _ i j i' j' Hok); auto. congruence.
  - intros i j H. unfold cell. now rewrite position_assert.
Qed.

Lemma dset_frame (T : Type) (d : dense T) dbg i j v : legal d -> i < d_rows d -> j < d_cols d ->
    exists d', dset dbg d i j v = Ok d' /\
      d_rows d' = d_rows d /\ d_cols d' = d_cols d /\ d_getSize d' = d_getSize d /\
      (forall dbg', dget dbg' d' i j = Ok v) /\
      (forall dbg' i' j', i' < d_rows d -> j' < d_cols d -> (i', j') <> (i, j) ->
         dget dbg' d' i' j' = dget dbg' d i' j') /\
      (forall a, cell dbg d i j <> Ok a -> nth_error (d_buf d') a = nth_error (d_buf d) a).
Proof.
  intros Hl Hi Hj. pose proof (legal_ok d Hl) as Hok.
  eexists; split; [now apply dset_ok|].
  assert (Hlt : addr (d_sh d) i j < length (d_buf d)) by now apply Hok.
  repeat split; auto.
  - intros dbg'. rewrite dget_in by auto. simpl. now apply rd_upd_eq.
  - intros dbg' i' j' Hi' Hj' Hne. rewrite !dget_in by auto. simpl. apply rd_upd_ne.
    intros E. apply Hne. destruct (addr_inj (d_sh d) _ i j i' j' Hok) as [-> ->]; auto.
  - intros a Ha. simpl. rewrite cell_in in Ha by auto. apply nth_error_upd_ne. congruence.
Qed.

Lemma row_dir_b o d : d = DRow \/ (o = RowMajor /\ d = DMinor) \/ (o = ColMajor /\ d = DMajor) ->
  is_row_dir o d = true.
Proof. intros [->|[[-> ->]|[-> ->]]]; auto; now destruct o. Qed.
Lemma col_dir_b o d : d = DCol \/ (o = RowMajor /\ d = DMajor) \/ (o = ColMajor /\ d = DMinor) ->
  is_row_dir o d = false.
Proof. intros [->|[[-> ->]|[-> ->]]]; auto; now destruct o. Qed.

Lemma cursor_spec (T : Type) (d : dense T) d1 d2 : legal d ->
    (d1 = DRow \/ (d_orient d = RowMajor /\ d1 = DMinor) \/ (d_orient d = ColMajor /\ d1 = DMajor) ->
     d2 = DCol \/ (d_orient d = RowMajor /\ d2 = DMajor) \/ (d_orient d = ColMajor /\ d2 = DMinor) ->
     forall dbg i, i < d_rows d -> exists ads, cur_addrs (d_sh d) d1 d2 i = Ok ads /\
       length ads = d_cols d /\ NoDup ads /\
       forall j, j < d_cols d -> exists a, nth_error ads j = Some a /\ cell dbg d i j = Ok a /\
                                           a < length (d_buf d)) /\
    (d1 = DCol \/ (d_orient d = RowMajor /\ d1 = DMajor) \/ (d_orient d = ColMajor /\ d1 = DMinor) ->
     d2 = DRow \/ (d_orient d = RowMajor /\ d2 = DMinor) \/ (d_orient d = ColMajor /\ d2 = DMajor) ->
     forall dbg j, j < d_cols d -> exists ads, cur_addrs (d_sh d) d1 d2 j = Ok ads /\
       length ads = d_rows d /\ NoDup ads /\
       forall i, i < d_rows d -> exists a, nth_error ads i = Some a /\ cell dbg d i j = Ok a /\
                                           a < length (d_buf d)).
Proof.
  intros Hl. pose proof (legal_ok d Hl) as Hok. split.
  - intros H1 H2 dbg i Hi. apply row_dir_b in H1. apply col_dir_b in H2.
    eexists; split; [apply cur_row_addrs; auto; apply Hok|]. rewrite map_length, seq_length.
    split; [reflexivity|]. split.
    + apply NoDup_map_inj; [apply seq_NoDup|]. intros x y Hx Hy E. apply in_seq in Hx. apply in_seq in Hy.
      destruct (addr_inj (d_sh d) _ i x i y Hok); auto; lia.
    + intros j Hj. exists (addr (d_sh d) i j). split; [|split; [now apply cell_in|now apply Hok]].
      rewrite nth_error_map_eq, nth_error_seq. unfold d_cols in Hj.
      destruct (Nat.ltb_spec j (sh_cols (d_sh d))); [reflexivity|lia].
  - intros H1 H2 dbg j Hj. apply col_dir_b in H1. apply row_dir_b in H2.
    eexists; split; [apply cur_col_addrs; auto; apply Hok|]. rewrite map_length, seq_length.
    split; [reflexivity|]. split.
    + apply NoDup_map_inj; [apply seq_NoDup|]. intros x y Hx Hy E. apply in_seq in Hx. apply in_seq in Hy.
      destruct (addr_inj (d_sh d) _ x j y j Hok); auto; lia.
    + intros i Hi. exists (addr (d_sh d) i j). split; [|split; [now apply cell_in|now apply Hok]].
      rewrite nth_error_map_eq, nth_error_seq. unfold d_rows in Hi.
      destruct (Nat.ltb_spec i (sh_rows (d_sh d))); [reflexivity|lia].
Qed.

Lemma window_alias (T : Type) (p : dense T) r c f nr nc br bc :
    is_mat p r c f -> inside p nr nc br bc ->
    let w := d_window p nr nc br bc in
    view w nr nc (fun i j => f (br + i) (bc + j)) /\
    (forall dbg i j v, i < nr -> j < nc ->
       exists m, dset dbg w i j v = Ok (with_buf w m) /\
         is_mat (with_buf p m) r c
           (fun i' j' => if (i' =? br + i) && (j' =? bc + j) then v else f i' j')) /\
    (forall src g, is_mat src nr nc g ->
       exists m, d_copy (fun x => x) src w = Ok (with_buf w m) /\
         is_mat (with_buf p m) r c
           (fun i j => if (br <=? i) && (i <? br + nr) && (bc <=? j) && (j <? bc + nc)
                       then g (i - br) (j - bc) else f i j)) /\
    (1 <= nr -> 1 <= nc -> (Z.of_nat (length (d_buf p)) < 2 ^ 63)%Z ->
       forall v, exists m, all_filler v w = Ok (with_buf w m) /\
         is_mat (with_buf p m) r c
           (fun i j => if (br <=? i) && (i <? br + nr) && (bc <=? j) && (j <? bc + nc)
                       then v else f i j)).
Proof.
  intros Hm Hin w. split; [now apply (window_view p r c f)|]. split; [|split].
  - intros dbg i j v Hi Hj. exact (window_set p r c f nr nc br bc dbg i j v Hm Hin Hi Hj).
  - intros src g Hg. exact (copy_window (fun x => x) src p r c f nr nc g br bc Hg Hm Hin).
  - intros H1 H2 Hb v. pose proof Hm as [Hw Hv]. pose proof Hv as (Hr & Hc & _).
    pose proof Hin as (_ & _ & I1 & I2).
    destruct (all_filler_spec v w (window_iterable p nr nc br bc Hin H1 H2 Hb) (wf_window_ok p nr nc br bc Hin))
      as (m & E & L & Hi & Ho).
    exists m; split; [exact E|]. split; [now apply with_buf_wf|].
    apply view_from_cells; auto. intros i j Hi' Hj'. cbn [with_buf d_buf d_sh].
    destruct (Nat.leb_spec br i), (Nat.ltb_spec i (br + nr)), (Nat.leb_spec bc j), (Nat.ltb_spec j (bc + nc));
      cbn [andb].
    1: { specialize (Hi (i - br) (j - bc)). change (d_rows w) with nr in Hi. change (d_cols w) with nc in Hi.
         specialize (Hi ltac:(lia) ltac:(lia)). unfold w in Hi. rewrite window_addr in Hi by auto.
         replace (br + (i - br)) with i in Hi by lia. replace (bc + (j - bc)) with j in Hi by lia. exact Hi. }
    all: rewrite Ho; [now apply (view_cell p r c f)|];
      intros i2 j2 Hi2 Hj2 Ea; change (d_rows w) with nr in Hi2; change (d_cols w) with nc in Hj2;
      unfold w in Ea; rewrite window_addr in Ea by auto;
      destruct (addr_inj (d_sh p) _ i j (br + i2) (bc + j2) (wf_sh_ok p Hw)); unfold d_rows, d_cols in *; lia.
Qed.

Lemma striped_spec data cs nb sep :
    1 <= cs -> 1 <= nb -> (Z.of_nat cs * Z.of_nat nb + (Z.of_nat nb - 1) * Z.of_nat sep < 2 ^ 63)%Z ->
    let s := mkStriped data (Z.of_nat cs) (Z.of_nat nb) (Z.of_nat sep) in
    let at_ b p := (data + Z.of_nat (b * (cs + sep) + p))%Z in
    sp_addrs s = Ok (flat_map (fun b => map (at_ b) (seq 0 cs)) (seq 0 nb)) /\
    sp_raddrs s = Ok (rev (flat_map (fun b => map (at_ b) (seq 0 cs)) (seq 0 nb))) /\
    (forall b p, b < nb -> p < cs ->
       let it := mkSiter (at_ b p) (Z.of_nat p) (Z.of_nat b) in
       si_dec s (si_inc s it) = it \/ (b = nb - 1 /\ p = cs - 1)).
Proof.
  intros H1 H2 Hb s at_.
  assert (Hf : sp_fits s cs nb) by (repeat split; simpl; auto; lia).
  assert (Eat : forall b p, sp_at s b p = at_ b p)
    by (intros b p; unfold sp_at, at_; simpl; lia).
  assert (Efm : fwd s cs nb = flat_map (fun b => map (at_ b) (seq 0 cs)) (seq 0 nb)).
  { unfold fwd, blk. generalize (seq 0 nb) as l. induction l as [|b l IH]; simpl; auto.
    rewrite IH. f_equal. apply map_ext; intros p; apply Eat. }
  split; [rewrite (sp_addrs_fwd s cs nb Hf); now rewrite Efm|].
  split; [rewrite (sp_addrs_bwd s cs nb Hf); now rewrite Efm|].
  intros b p Hbn Hp it. unfold si_inc, it; cbn [si_pos si_ptr si_blk].
  rewrite (sp_csm1 s cs nb Hf).
  destruct (Z.eqb_spec (Z.of_nat p) (Z.of_nat (cs - 1))) as [Ep|Ep].
  - destruct (Z.eqb_spec (Z.of_nat b + 1) (sp_nb s)) as [Eb|Eb]; cbn [sp_nb s] in Eb.
    + right; lia.
    + left. unfold si_dec; cbn [si_pos si_ptr si_blk]. rewrite Z.eqb_refl.
      destruct (Z.eqb_spec (Z.of_nat b + 1 - 1) (-1)); [lia|]. rewrite (sp_csm1 s cs nb Hf). f_equal; lia.
  - left. unfold si_dec; cbn [si_pos si_ptr si_blk].
    destruct (Z.eqb_spec (Z.of_nat p + 1) 0); [lia|]. f_equal; lia.
Qed.

Lemma fillers_spec (T : Type) (S : Scalar T) o r c :
    (forall v, exists d, all_filler v (@d_new T o r c) = Ok d /\ is_mat d r c (fun _ _ => v)) /\
    (exists d, continuous_filler (@d_new T o r c) = Ok d /\
       is_mat d r c (fun i j => cnt (match o with RowMajor => i * c + j | ColMajor => j * r + i end))) /\
    (forall sdiv, exists d, hilbert_filler sdiv (@d_new T o r c) = Ok d /\
       is_mat d r c (fun i j => sdiv s1 (ssub (sadd (cnt i) (cnt j)) s1))) /\
    (forall dbg v, r = c -> exists d, diagonal_filler dbg v (@d_new T o r c) = Ok d /\
       is_mat d r c (fun i j => if i =? j then v else s0)) /\
    (forall dbg v, r <> c -> diagonal_filler dbg v (@d_new T o r c) = Throw).
Proof.
  set (d0 := @d_new T o r c). assert (W0 : wf_mem d0) by apply d_new_wf.
  pose proof (wf_sh_ok d0 W0) as Hok. repeat split.
  - intros v. destruct (all_filler_mat v d0 W0) as (d & E & M & _). eauto.
  - destruct (continuous_spec d0 (or_introl W0) Hok) as (b & E & L & H & _).
    exists (with_buf d0 b); split; auto. split; [now apply with_buf_wf|]. apply view_from_cells; auto.
  - intros sdiv. destruct (hilbert_spec sdiv d0 Hok) as (b & E & L & H & _).
    exists (with_buf d0 b); split; auto. split; [now apply with_buf_wf|]. apply view_from_cells; auto.
  - intros dbg v ->. destruct (diagonal_spec dbg v d0 c W0 eq_refl eq_refl) as (d & E & M & _). eauto.
  - intros dbg v H. now apply diagonal_throw.
Qed.

Lemma dense_to_dense (T U : Type) (cv : T -> U) (d : dense T) r c f : is_mat d r c f ->
    (is_mat (d_conv_same cv d) r c (fun i j => cv (f i j)) /\
     d_orient (d_conv_same cv d) = d_orient d /\ full_ok (d_conv_same cv d)) /\
    (exists d', d_conv_flip cv d = Ok d' /\ is_mat d' r c (fun i j => cv (f i j)) /\
     d_orient d' = flip (d_orient d) /\ full_ok d').
Proof.
  intros Hm. split.
  - destruct (conv_same_spec cv d r c f Hm) as (H1 & H2 & H3 & _); auto.
  - destruct (conv_flip_spec cv d r c f Hm) as (d' & E & H1 & H2 & H3 & _); eauto.
Qed.

Lemma window_to_dense (T U : Type) (cv : T -> U) (zero : U) (chk : T -> bool) (p : dense T) r c f nr nc br bc :
    is_mat p r c f -> inside p nr nc br bc -> 1 <= nr -> 1 <= nc ->
    (Z.of_nat (length (d_buf p)) < 2 ^ 63)%Z ->
    exists d, d_conv_window cv zero chk (d_window p nr nc br bc) = Ok d /\
      is_mat d nr nc (fun i j => if chk (f (br + i) (bc + j)) then cv (f (br + i) (bc + j)) else zero) /\
      d_orient d = ColMajor /\ full_ok d.
Proof.
  intros Hm Hin H1 H2 Hb.
  destruct (conv_window_spec cv zero chk (d_window p nr nc br bc) nr nc (fun i j => f (br + i) (bc + j)))
    as (d & E & M & O & F & _); auto.
  - now apply (window_view p r c f).
  - reflexivity.
  - now apply window_iterable.
  - eauto.
Qed.

Lemma transpose_twice (T : Type) (d : dense T) r c f : is_mat d r c f ->
    exists t, transpose_dense d = Ok t /\ is_mat t c r (fun i j => f j i) /\
      d_orient t = d_orient d /\ full_ok t /\
      exists t2, transpose_dense t = Ok t2 /\ is_mat t2 r c f /\ d_buf t2 = d_buf d.
Proof.
  intros Hm. pose proof Hm as [Hw Hv].
  destruct (transpose_spec d r c f Hv) as (t & E & M & O & F & _); [apply (wf_sh_ok d Hw)|].
  exists t; repeat split; auto; try apply M.
  destruct M as [Wt Vt].
  destruct (transpose_spec t c r (fun i j => f j i) Vt) as (t2 & E2 & M2 & O2 & F2 & _); [apply (wf_sh_ok t Wt)|].
  exists t2; split; [exact E2|]. split; [exact M2|].
  apply (view_buf_ext t2 d r c f); auto. now rewrite O2, O.
Qed.

(** * Sizes *)
Definition sizes_ok {T} (d : dense T) : Prop :=
  d_getSize d = d_rows d * d_cols d /\ length (d_buf d) = d_rows d * d_cols d.

(** Loops that only write through [with_buf] keep shape and sizes. *)
Definition same_dims {T} (d d' : dense T) : Prop :=
  d_sh d' = d_sh d /\ d_full d' = d_full d /\ length (d_buf d') = length (d_buf d).

Lemma same_dims_sizes {T} (d d' : dense T) : same_dims d d' -> sizes_ok d -> sizes_ok d'.
Proof.
  intros (H1 & H2 & H3) (S1 & S2). unfold sizes_ok, d_getSize, d_rows, d_cols in *.
  rewrite H1, H2, H3. auto.
Qed.
Lemma same_dims_refl {T} (d : dense T) : same_dims d d.
Proof. repeat split. Qed.
Lemma same_dims_trans {T} (a b c : dense T) : same_dims a b -> same_dims b c -> same_dims a c.
Proof. unfold same_dims. intros (H1 & H2 & H3) (H4 & H5 & H6). repeat split; congruence. Qed.

Lemma wr_dims {T} (d : dense T) a v b : wr (d_buf d) a v = Ok b -> same_dims d (with_buf d b).
Proof. intros H. apply wr_inv in H as [_ ->]. repeat split. simpl. now rewrite upd_length. Qed.
Lemma wrc_inv {T} (b : buf T) a c b' : wrc b a c = Ok b' -> a < length b /\ b' = upd b a c.
Proof. unfold wrc. destruct (Nat.ltb_spec a (length b)); intros E; inversion E; auto. Qed.
Lemma wrc_dims {T} (d : dense T) a v b : wrc (d_buf d) a v = Ok b -> same_dims d (with_buf d b).
Proof. intros H. apply wrc_inv in H as [_ ->]. repeat split. simpl. now rewrite upd_length. Qed.
Lemma wrz_dims {T} (d : dense T) a v b : wrz (d_buf d) a v = Ok b -> same_dims d (with_buf d b).
Proof. unfold wrz. destruct (a <? 0)%Z; [discriminate|]. apply wr_dims. Qed.

Lemma foldM_dims {X T} (f : X -> dense T -> res (dense T)) l d d' :
  (forall x y y', In x l -> f x y = Ok y' -> same_dims y y') -> foldM f l d = Ok d' -> same_dims d d'.
Proof.
  intros Hf E. refine (foldM_inv_ok f (fun y => same_dims d y) l d d' (same_dims_refl d) _ E).
  intros x y y' Hx Hy Exy. eapply same_dims_trans; [exact Hy|]. eapply Hf; eauto.
Qed.

Lemma foldM_dims2 {X A T} (f : X -> A * dense T -> res (A * dense T)) l s s' :
  (forall x y y', In x l -> f x y = Ok y' -> same_dims (snd y) (snd y')) ->
  foldM f l s = Ok s' -> same_dims (snd s) (snd s').
Proof.
  intros Hf E. refine (foldM_inv_ok f (fun y => same_dims (snd s) (snd y)) l s s' (same_dims_refl _) _ E).
  intros x y y' Hx Hy Exy. eapply same_dims_trans; [exact Hy|]. eapply Hf; eauto.
Qed.

Ltac bstep H := apply bind_ok in H as (? & ? & H).

Section Sizes.
  Context {T : Type} {S : Scalar T}.
  Implicit Types (d t p : dense T).

  Lemma sizes_default o : sizes_ok (@d_default T o).
  Proof. split; reflexivity. Qed.
  Lemma sizes_new o r c : sizes_ok (@d_new T o r c).
  Proof. split; [reflexivity|]. simpl. now rewrite alloc_length. Qed.
  Lemma sizes_external o r c (m : buf T) : length m = r * c -> sizes_ok (d_external o r c m).
  Proof. intros H; split; [reflexivity|exact H]. Qed.

  Lemma sizes_init_list o (values : list (list T)) d : d_init_list o values = Ok d -> sizes_ok d.
  Proof.
    intros E. unfold d_init_list in E. destruct values as [|first rest]; [discriminate|].
    eapply same_dims_sizes; [|apply (sizes_new o (length (first :: rest)) (length first))].
    unfold forM in E. revert E. apply foldM_dims. intros i y y' _ E.
    destruct (nth_error (first :: rest) i) as [row|]; [|discriminate].
    bstep E. revert E. apply foldM_dims. intros [k a] z z' _ E.
    destruct (nth_error row k); [|discriminate]. bstep E. inversion E; subst. eapply wr_dims; eauto.
  Qed.

  Lemma sizes_conv_same d (cv : T -> T) : sizes_ok d -> sizes_ok (d_conv_same cv d).
  Proof. intros [H1 H2]. split; [reflexivity|]. simpl. rewrite map_length. exact H2. Qed.

  Lemma transpose_dims d t : transpose_dense d = Ok t ->
    same_dims (@d_new T (d_orient d) (d_cols d) (d_rows d)) t.
  Proof.
    unfold transpose_dense, forM. apply foldM_dims. intros i y y' _ E. bstep E. revert E.
    apply foldM_dims. intros [k a] z z' _ E. bstep E. bstep E. inversion E; subst. eapply wrc_dims; eauto.
  Qed.
  Lemma sizes_transpose d t : sizes_ok d -> transpose_dense d = Ok t -> sizes_ok t.
  Proof. intros _ E. eapply same_dims_sizes; [exact (transpose_dims _ _ E)|apply sizes_new]. Qed.

  Lemma sizes_conv_flip d d' (cv : T -> T) : sizes_ok d -> d_conv_flip cv d = Ok d' -> sizes_ok d'.
  Proof.
    intros _ E. unfold d_conv_flip in E. apply bind_ok in E as (t & Et & E). inversion E; subst.
    apply transpose_dims in Et as (_ & _ & Hl). split; [reflexivity|]. simpl. rewrite map_length, Hl.
    simpl. rewrite alloc_length. unfold d_rows at 2, d_cols at 2. simpl. apply Nat.mul_comm.
  Qed.

  Lemma sizes_conv_window p nr nc br bc (cv : T -> T) z chk d :
    sizes_ok p -> d_conv_window cv z chk (d_window p nr nc br bc) = Ok d -> sizes_ok d.
  Proof.
    intros _ E. unfold d_conv_window in E. bstep E.
    eapply same_dims_sizes; [|apply (sizes_new ColMajor nr nc)]. revert E.
    apply foldM_dims. intros [k a] y y' _ E. bstep E. bstep E. inversion E; subst. eapply wr_dims; eauto.
  Qed.

  Lemma sizes_move d : sizes_ok d -> sizes_ok (fst (d_move d)).
  Proof. intros [H1 H2]; split; auto. Qed.

  Lemma sizes_resize d r c : sizes_ok d -> snd (d_resize d r c) = false -> sizes_ok (fst (d_resize d r c)).
  Proof.
    intros _. unfold d_resize. destruct (_ && _); cbn [fst snd]; [discriminate|]. intros _.
    split; [reflexivity|]. simpl. unfold st_resize, d_rows, d_cols; simpl.
    destruct (Nat.eqb_spec (length (d_buf d)) (r * c)); auto. apply alloc_length.
  Qed.

  Lemma sizes_dset d dbg i j v d' : sizes_ok d -> dset dbg d i j v = Ok d' -> sizes_ok d'.
  Proof.
    intros Hs E. unfold dset in E. bstep E. bstep E. inversion E; subst.
    eapply same_dims_sizes; [eapply wr_dims; eauto|exact Hs].
  Qed.

  Lemma all_filler_dims d v d' : all_filler v d = Ok d' -> same_dims d d'.
  Proof.
    intros E. unfold all_filler in E. bstep E. revert E. apply foldM_dims.
    intros a y y' _ E. bstep E. inversion E; subst. eapply wrz_dims; eauto.
  Qed.
  Lemma sizes_all_filler d v d' : sizes_ok d -> all_filler v d = Ok d' -> sizes_ok d'.
  Proof. intros Hs E. eapply same_dims_sizes; [exact (all_filler_dims _ _ _ E)|exact Hs]. Qed.

  Lemma sizes_continuous d d' : sizes_ok d -> continuous_filler d = Ok d' -> sizes_ok d'.
  Proof.
    intros Hs E. unfold continuous_filler in E. apply bind_ok in E as (ads & Ea & E).
    apply bind_ok in E as (r & Er & E). inversion E; subst.
    eapply same_dims_sizes; [|exact Hs]. revert Er. apply (foldM_dims2 _ _ (s1, d)).
    intros a [v y] y' _ E2. bstep E2. inversion E2; subst. eapply wrz_dims; eauto.
  Qed.

  Lemma sizes_hilbert d sdiv d' : sizes_ok d -> hilbert_filler sdiv d = Ok d' -> sizes_ok d'.
  Proof.
    intros Hs E. unfold hilbert_filler in E. apply bind_ok in E as (r & Er & E). inversion E; subst.
    eapply same_dims_sizes; [|exact Hs]. unfold forM in Er. revert Er. apply (foldM_dims2 _ _ (s1, d)).
    intros i [row y] y' _ E2. apply bind_ok in E2 as (ads & Ea & E2). apply bind_ok in E2 as (q & Eq & E2).
    inversion E2; subst. cbn [snd]. revert Eq. apply (foldM_dims2 _ _ (s1, y)).
    intros a [v z] z' _ E3. bstep E3. inversion E3; subst. eapply wr_dims; eauto.
  Qed.

  Lemma sizes_diagonal d dbg v d' : sizes_ok d -> diagonal_filler dbg v d = Ok d' -> sizes_ok d'.
  Proof.
    intros Hs E. unfold diagonal_filler in E. destruct (negb _); [discriminate|].
    apply bind_ok in E as (d1 & E1 & E). apply all_filler_dims in E1.
    eapply same_dims_sizes; [|exact Hs]. eapply same_dims_trans; [exact E1|]. unfold forM in E. revert E.
    apply foldM_dims. intros i y y' _ E. unfold dset in E. bstep E. bstep E. inversion E; subst.
    eapply wr_dims; eauto.
  Qed.

  Lemma sizes_copy s d (cv : T -> T) d' : sizes_ok s -> sizes_ok d -> d_copy cv s d = Ok d' -> sizes_ok d'.
  Proof.
    intros _ Hs E. eapply same_dims_sizes; [|exact Hs]. unfold d_copy, forM in E. revert E.
    apply foldM_dims. intros i y y' _ E. bstep E. revert E.
    apply foldM_dims. intros [k a] z z' _ E. bstep E. bstep E. inversion E; subst. eapply wrc_dims; eauto.
  Qed.
End Sizes.
