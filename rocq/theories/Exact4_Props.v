(** Exact characterisations, fourth part: products with row-major sparse operands,
    sums of row-major sparse matrices that are not square, the sparse filler,
    zero products and the gemm adapter with an empty inner dimension. *)
From Verif Require Import Base BaseLemmas Dense_Model Dense_Spec Dense_Proofs Dense2_Proofs Dense3_Proofs
  Dense_Props Sparse_Model Sparse_Spec Sparse_Proofs Sparse2_Proofs Sparse3_Proofs Sparse4_Proofs SparseT_Proofs
  SparseF_Proofs SparseP_Proofs Sparse_Props Mult_Model Mult_Spec Mult_Proofs Mult2_Proofs Mult3_Proofs Mult_Props
  Exact_Props Exact2_Props Exact3_Props.

(** ** C26, C27 *)
Lemma mul_ss_relabel {T1 T2 T3} (fma : T3 -> T1 -> T2 -> T3) zero nz dbg (a : sparse T1) (b : sparse T2) (c s : sparse T3) :
  mul_ss fma zero nz dbg (relabel ColMajor a) (relabel ColMajor b) (relabel ColMajor c) = Ok s ->
  mul_ss fma zero nz dbg a b c = Ok (relabel (s_o c) s).
Proof.
  destruct a as [oa ra ca fla vsa ksa osa], b as [ob rb cb flb vsb ksb osb], c as [oc rc cc flc vsc ksc osc].
  unfold mul_ss, s_nlines, s_range, s_resize. cbn [relabel s_o s_rows s_cols s_off s_key s_val s_full].
  intros E. apply bind_ok in E as (u & E1 & E). rewrite E1; cbn [bind].
  apply bind_ok in E as (n & E2 & E). rewrite E2; cbn [bind].
  apply bind_ok in E as (st & E3 & E). rewrite E3; cbn [bind]. destruct st as [[[vs ks] offs] p].
  apply bind_ok in E as (o2 & E4 & E). rewrite E4; cbn [bind]. injection E as <-. reflexivity.
Qed.

(** Square sparse matrices in any orientations: each row-major operand enters as
    its transpose and so does a row-major result. *)
Theorem C26_any_orientation_square_exact :
  forall (T1 T2 T3 : Type) (fma : T3 -> T1 -> T2 -> T3) (zero : T3) (nz : T3 -> bool) dbg
      (a : sparse T1) (b : sparse T2) (c : sparse T3) n fa fb,
    sp_mat a n n fa -> sp_mat b n n fb ->
    exists s, mul_ss fma zero nz dbg a b c = Ok s /\ s_o s = s_o c /\
      sp_mat s n n (tr (s_o c) (fun i j =>
        let v := prod_ss_at fma zero n (tr (s_o a) fa) (tr (s_o b) fb) i j in if nz v then Some v else None)).
Proof.
  intros T1 T2 T3 fma zero nz dbg a b c n fa fb Ha Hb.
  pose proof (relabel_mat ColMajor a n fa Ha) as Ha'. pose proof (relabel_mat ColMajor b n fb Hb) as Hb'.
  destruct (mul_ss_spec fma zero nz dbg _ _ (relabel ColMajor c) n n n _ _ Ha' eq_refl Hb' eq_refl eq_refl) as (s & E & O & M).
  exists (relabel (s_o c) s). split; [now apply mul_ss_relabel|]. split; [reflexivity|].
  eapply sp_mat_ext; [exact (relabel_mat (s_o c) s n _ M)|]. intros i j _ _. rewrite O. reflexivity.
Qed.
Print Assumptions C26_any_orientation_square_exact.

(** Two row-major square matrices: A * B yields the product B A. *)
Theorem C26_row_major_square_exact :
  forall (T : Type) (SC : Scalar T) (RL : RingLaws T), (forall x y : T, smul x y = smul y x) ->
    forall dbg (a b : sparse T) n fa fb,
    sp_mat a n n fa -> s_o a = RowMajor -> sp_mat b n n fb -> s_o b = RowMajor ->
    exists s fs, mul_ss s_fma s0 s_nz dbg a b (s_default RowMajor) = Ok s /\ sp_mat s n n fs /\
      forall i j, i < n -> j < n ->
        dflt s0 (fs i j) = mat_prod n (fun i j => dflt s0 (fb i j)) (fun i j => dflt s0 (fa i j)) i j.
Proof.
  intros T SC RL Hcomm dbg a b n fa fb Ha Oa Hb Ob.
  destruct (C26_any_orientation_square_exact T T T s_fma s0 s_nz dbg a b (s_default RowMajor) n fa fb Ha Hb) as (s & E & O & M).
  exists s. eexists. split; [exact E|]. split; [exact M|]. intros i j Hi Hj. rewrite Oa, Ob. cbn [s_default s_o tr].
  cbv zeta. rewrite prod_ss_ring.
  assert (Em : mat_prod n (fun i0 j0 => dflt s0 (fa j0 i0)) (fun i0 j0 => dflt s0 (fb j0 i0)) j i
             = mat_prod n (fun i j => dflt s0 (fb i j)) (fun i j => dflt s0 (fa i j)) i j).
  { unfold mat_prod. clear - Hcomm. induction n as [|k IH]; [reflexivity|]. cbn [sum_n]. f_equal; [exact IH|apply Hcomm]. }
  rewrite Em.
  match goal with |- dflt _ (if ?b then _ else _) = _ => destruct b eqn:Eb end; [reflexivity|].
  cbn [dflt]. symmetry. now apply r_nz.
Qed.
Print Assumptions C26_row_major_square_exact.

(** Sparse * Dense and Dense * Sparse with a square sparse operand. *)
Theorem C27_any_orientation_square_exact :
  forall (T1 T2 T3 : Type) (fma : T3 -> T1 -> T2 -> T3) (zero : T3) dbg n,
    (forall (a : sparse T1) (b : dense T2) (c : dense T3) l fa fb,
       sp_mat a n n fa -> is_mat b n l fb -> d_orient b = ColMajor -> fresh_ok c -> d_orient c = ColMajor ->
       exists d, mul_sd fma zero dbg a b c = Ok d /\ is_mat d n l (prod_sd_at fma zero n (tr (s_o a) fa) fb)) /\
    (forall (a : dense T1) (b : sparse T2) (c : dense T3) m fa fb,
       view a m n fa -> legal a -> sp_mat b n n fb -> fresh_ok c ->
       exists d, mul_ds fma zero dbg a b c = Ok d /\ is_mat d m n (prod_ds_at fma zero n fa (tr (s_o b) fb))).
Proof.
  intros T1 T2 T3 fma zero dbg n. split.
  - intros a b c l fa fb Ha Hb Ob Hf Oc. pose proof (relabel_mat ColMajor a n fa Ha) as Ha'.
    destruct (mul_sd_spec fma zero dbg _ b c n n l _ fb Ha' eq_refl Hb Ob Hf Oc) as (d & E & M & _).
    exists d. split; [exact E|exact M].
  - intros a b c m fa fb Va La Hb Hf. pose proof (relabel_mat ColMajor b n fb Hb) as Hb'.
    destruct (mul_ds_spec fma zero dbg a _ c m n n fa _ Va La Hb' eq_refl Hf) as (d & E & M & _).
    exists d. split; [exact E|exact M].
Qed.
Print Assumptions C27_any_orientation_square_exact.

(** ** C20: row-major operands that are not square give no well-formed result. *)
Theorem C20_row_major_not_square_exact :
  forall (A B C : Type) (ca : A -> C) (ub : B -> C) (op : A -> B -> C) dbg (a : sparse A) (b : sparse B) s,
    s_o a = RowMajor -> s_rows a <> s_cols a -> s_binop ca ub op dbg a b = Ok s -> ~ sp_wf s.
Proof.
  intros A B C ca ub op dbg a b s Oa Hne E (L & _). unfold s_binop in E.
  apply bind_ok in E as (u1 & _ & E). apply bind_ok in E as (u2 & _ & E).
  apply bind_ok in E as (o1 & E1 & E). apply bind_ok in E as (n & _ & E).
  apply bind_ok in E as ([[[vs ks] offs] p] & E2 & E). injection E as <-.
  unfold s_minor in L. cbn [s_off s_o s_rows s_cols s_resize s_default] in L. rewrite Oa in L.
  assert (L1 : length o1 = s_cols a + 1).
  { apply wr_len in E1. rewrite E1. cbn [s_resize s_default s_off]. unfold st_resize. cbn [length].
    destruct (Nat.eqb_spec 0 (s_cols a + 1)); [lia|]. apply alloc_length. }
  assert (L2 : length (snd (fst (vs, ks, offs, p))) = s_cols a + 1).
  { refine (foldM_inv_ok _ (fun st : buf C * buf nat * buf nat * nat => length (snd (fst st)) = s_cols a + 1) _ _ _ _ _ E2).
    - exact L1.
    - intros l [[[v1 k1] of1] p1] st' _ H1 H2. cbn [fst snd] in H1.
      do 5 (apply bind_ok in H2 as (? & _ & H2)). 
      repeat match type of H2 with match ?x with (_, _) => _ end = _ => destruct x end.
      apply bind_ok in H2 as (of2 & E3 & H2). injection H2 as <-. cbn. apply wr_len in E3. congruence. }
  cbn [fst snd] in L2. lia.
Qed.
Print Assumptions C20_row_major_not_square_exact.

(** ** C12: the sparse filler with fewer places than elements always writes past
    the key array; on a row-major matrix it works exactly for square ones. *)
Theorem C12_sparse_filler_small_nnz_exact :
  forall (T : Type) (S : Scalar T) o r c nnz, 0 < nnz -> nnz < r * c ->
    s_continuous_filler (@s_new T o r c nnz) = UB OOBWrite.
Proof.
  intros T SC o r c nnz H0 Hlt. unfold s_continuous_filler, s_nlines, s_new.
  destruct (Nat.eqb_spec nnz 0); [lia|]. cbn [s_val s_key s_off s_rows].
  destruct (foldM_inv (fun i '(v, vs) => do vs <- wr vs i v; Ok (sadd v s1, vs))
     (fun _ (st : T * buf T) => length (snd st) = nnz) (seq 0 (length (@alloc T nnz))) (s1, alloc nnz)) as (vv & E & _).
  { cbn. apply alloc_length. }
  { intros k x [v vs] Hk Hs. cbn [snd] in *. apply nth_error_In, in_seq in Hk. rewrite alloc_length in Hk.
    unfold wr, wrc. destruct (Nat.ltb_spec x (length vs)); [|lia]. cbn [bind]. eexists; split; [reflexivity|].
    cbn. now rewrite upd_length. }
  rewrite E. cbn [bind]. rewrite alloc_length. rewrite Nat.add_1_r. cbn [bind].
  set (Inv := fun st : buf nat * buf nat => length (fst st) = nnz /\ length (snd st) = c + 1).
  assert (Hkeys : forall l ks, length ks = nnz ->
    (exists ks', forM r (fun k ks => wr ks (l * r + k) k) ks = Ok ks' /\ length ks' = nnz) \/
    forM r (fun k ks => wr ks (l * r + k) k) ks = UB OOBWrite).
  { intros l ks Hl. unfold forM. apply foldM_ok_or; auto. intros k b _ Hb. unfold wr, wrc.
    destruct (_ <? _); [left|right; reflexivity]. eexists; split; [reflexivity|]. now rewrite upd_length. }
  assert (Hc : c <> 0) by (intros ->; nia).
  match goal with |- bind (forM c ?bd ?st0) _ = _ => assert (G : forM c bd st0 = UB OOBWrite) end.
  2:{ rewrite G. reflexivity. }
  unfold forM at 1. apply (foldM_fails _ Inv).
  - unfold Inv; cbn [fst snd]. rewrite !alloc_length. lia.
  - intros l [ks offs] Hl [I1 I2]. cbn [fst snd] in *. apply in_seq in Hl.
    destruct (Hkeys l ks I1) as [(ks' & Ek & Lk)|Ek]; rewrite Ek; cbn [bind]; [|now right].
    left. unfold wr, wrc. destruct (Nat.ltb_spec l (length offs)); [|lia]. cbn [bind].
    eexists; split; [reflexivity|]. split; cbn; [exact Lk|now rewrite upd_length].
  - exists (nnz / r). assert (Hr : r <> 0) by nia.
    assert (Hq : nnz / r < c) by (apply Nat.div_lt_upper_bound; lia).
    split; [apply in_seq; lia|]. intros [ks offs] [I1 I2]. cbn [fst snd] in *.
    assert (Ek : forM r (fun k ks => wr ks (nnz / r * r + k) k) ks = UB OOBWrite).
    { unfold forM. apply (foldM_fails _ (fun ks => length ks = nnz)); auto.
      - intros k b _ Hb. unfold wr, wrc. destruct (_ <? _); [left|right; reflexivity].
        eexists; split; [reflexivity|]. now rewrite upd_length.
      - exists (nnz mod r). split; [apply in_seq; pose proof (Nat.mod_upper_bound nnz r Hr); lia|].
        intros b Hb. unfold wr, wrc. destruct (Nat.ltb_spec (nnz / r * r + nnz mod r) (length b)); [|reflexivity].
        pose proof (Nat.div_mod nnz r Hr). nia. }
    rewrite Ek. reflexivity.
Qed.
Print Assumptions C12_sparse_filler_small_nnz_exact.

Lemma filler_relabel {T} `{SC : Scalar T} o r c nnz s :
  s_continuous_filler (@s_new T ColMajor r c nnz) = Ok s -> s_continuous_filler (@s_new T o r c nnz) = Ok (relabel o s).
Proof.
  unfold s_continuous_filler, s_nlines, s_new. cbn [s_o s_rows s_cols s_off s_key s_val s_full].
  intros E. apply bind_ok in E as (vv & E1 & E). rewrite E1; cbn [bind].
  apply bind_ok in E as (n & E2 & E). rewrite E2; cbn [bind].
  apply bind_ok in E as ([ks offs] & E3 & E). rewrite E3; cbn [bind].
  apply bind_ok in E as (o2 & E4 & E). rewrite E4; cbn [bind]. injection E as <-. reflexivity.
Qed.

Theorem C12_sparse_filler_row_major_exact :
  forall (T : Type) (S : Scalar T) r c nnz, nnz = 0 \/ r * c <= nnz ->
    exists s, s_continuous_filler (@s_new T RowMajor r c nnz) = Ok s /\ s_o s = RowMajor /\
      (sp_wf s <-> r = c) /\
      (r = c -> sp_mat s r c (fun i j => Some (cnt (i * c + j)))).
Proof.
  intros T SC r c nnz Hn. destruct (s_continuous_spec r c nnz Hn) as (s & E & O & M).
  exists (relabel RowMajor s). split; [now apply filler_relabel|]. split; [reflexivity|].
  assert (Sq : r = c -> sp_mat (relabel RowMajor s) r c (fun i j => Some (cnt (i * c + j)))).
  { intros <-. eapply sp_mat_ext; [exact (relabel_mat RowMajor s r _ M)|]. intros i j _ _. rewrite O. reflexivity. }
  split; [|exact Sq]. split.
  - intros (L & _). destruct M as ((L' & _) & R & C & _). unfold s_minor in *. cbn in L. rewrite O in L'. congruence.
  - intros H. exact (proj1 (Sq H)).
Qed.
Print Assumptions C12_sparse_filler_row_major_exact.

(** ** C28: getSize() of a zero product is what it was before. *)
Theorem C28_getsize_exact :
  forall dbg ra n cb (z : zmat), exists w, mul_zero dbg ra n n cb z = Ok w /\ z_full w = z_full z.
Proof.
  intros. unfold mul_zero, cassert. rewrite Nat.eqb_refl, andb_false_r. cbn [bind]. eexists; split; reflexivity.
Qed.
Print Assumptions C28_getsize_exact.

(** ** C29: an empty inner dimension, any number of rows and columns. *)
Theorem C29_empty_inner_dimension_exact :
  forall (T : Type) (dot : list (T * T) -> T) dbg (a b : dense T) m l fa fb,
    is_mat a m 0 fa -> is_mat b 0 l fb ->
    exists d, mul_blas dot dbg a b (d_default ColMajor) = Ok d /\ d_rows d = m /\ d_cols d = l /\
      forall i j, i < m -> j < l -> dget true d i j = UB UninitRead.
Proof.
  intros T dot dbg a b m l fa fb [Wa (Ra & Ca & _)] [Wb (Rb & Cb & _)].
  unfold mul_blas, cassert. rewrite Ca, Rb, Ra, Cb, Nat.eqb_refl, andb_false_r. cbn [bind].
  set (c0 := d_resize (d_default ColMajor) m l).
  assert (Hc : c0 = (mkDense (own_shape ColMajor m l) (m * l) (@alloc T (m * l)) true, false)).
  { unfold c0, d_resize, d_default. cbn [d_buf d_own negb]. rewrite andb_false_r. cbn. unfold st_resize. cbn [length].
    destruct (m * l); reflexivity. }
  rewrite Hc. cbv beta iota.
  assert (G : gemm dot (to_int m) (to_int l) (to_int 0) (d_buf a) (to_int m) (d_buf b) (to_int 0)
     (d_buf (mkDense (own_shape ColMajor m l) (m * l) (@alloc T (m * l)) true)) (to_int m) = Ok (alloc (m * l))).
  { unfold gemm. cbn [d_buf]. change (to_int 0) with 0%Z. change (0 <? Z.max 1 0)%Z with true.
    rewrite !orb_true_r. cbn [orb]. reflexivity. }
  rewrite G. cbn [bind]. eexists. split; [reflexivity|]. split; [reflexivity|]. split; [reflexivity|].
  intros i j Hi Hj. rewrite dget_in by (cbn; assumption). unfold rd, rdc, with_buf. cbn [d_buf d_sh].
  set (p := addr _ _ _).
  assert (Hp : p < m * l) by (unfold p, addr, own_shape; cbn; nia).
  unfold alloc. rewrite nth_error_repeat by exact Hp. reflexivity.
Qed.
Print Assumptions C29_empty_inner_dimension_exact.

(** A square row-major sparse matrix that meets the hypotheses of the theorems
    above (and of [C20_row_major_square], [C18_row_major_square],
    [C15_row_to_column_square]): the one the filler builds.  Its square is
    [[7; 10]; [15; 22]], stored by rows. *)
Example C26_any_orientation_nonvacuous :
  exists s, s_continuous_filler (@s_new Z RowMajor 2 2 4) = Ok s /\
    sp_mat s 2 2 (fun i j => Some (@cnt Z Z_Scalar (i * 2 + j))) /\ s_o s = RowMajor /\
    exists p, mul_ss s_fma 0%Z (@s_nz Z _) true s s (s_default RowMajor) = Ok p /\ s_val p = map Some [7; 10; 15; 22]%Z.
Proof.
  destruct (C12_sparse_filler_row_major_exact Z _ 2 2 4 (or_intror (le_n 4))) as (s & E & O & _ & M).
  exists s. split; [exact E|]. split; [now apply M|]. split; [exact O|].
  assert (Hs : Ok s = s_continuous_filler (@s_new Z RowMajor 2 2 4)) by (now symmetry). clear - Hs.
  vm_compute in Hs. injection Hs as ->. eexists. split; vm_compute; reflexivity.
Qed.

(** A sum of row-major matrices that are not square "succeeds". *)
Example C20_row_major_not_square_nonvacuous :
  exists a s, s_continuous_filler (@s_new Z RowMajor 1 2 2) = Ok a /\ s_rows a <> s_cols a /\ s_o a = RowMajor /\
    s_binop (fun x => x) (fun y => y) sadd true a a = Ok s.
Proof.
  eexists. eexists. split; [vm_compute; reflexivity|]. split; [cbn; discriminate|]. split; [reflexivity|].
  vm_compute. reflexivity.
Qed.
