(** C78: sparse * sparse through Intel MKL's mkl_?csrmultcsr. *)
From Verif Require Import Base BaseLemmas Dense_Model Dense_Spec Dense_Proofs Sparse_Model Sparse_Spec Sparse_Proofs
  Sparse2_Proofs Mult_Model Mult_Spec Mult_Proofs Mult2_Proofs Mult3_Proofs Csr_Model Csr_Spec Csr_Proofs.

(** ** Square row-major matrices: the product, stored where pairs meet. *)
Theorem C78_row_major_square :
  forall (T : Type) (dot : list (T * T) -> T) dbg (a b c : sparse T) n fa fb,
    sp_mat a n n fa -> sp_mat b n n fb -> s_o a = RowMajor -> s_o b = RowMajor -> s_o c = RowMajor ->
    (Z.of_nat (S (n * n)) < 2 ^ 31)%Z ->
    exists s, mul_csrmultcsr dot dbg a b c = Ok s /\ s_o s = RowMajor /\ s_nnz s = n * n /\
      sp_mat s n n (meets_at dot n fa fb).
Proof.
  intros T dot dbg a b c n fa fb Ha Hb Oa Ob Oc Bn.
  destruct (mul_csrmultcsr_lines dot dbg a b c n fa fb Ha Hb) as (s & E & O & Z & M); try congruence.
  rewrite Oc in *. eauto.
Qed.
Print Assumptions C78_row_major_square.

(** ** Square column-major matrices (the only sparse matrices the library's own
    conversions from column-major dense matrices produce by default): the pairs are
    those of B * A. *)
Theorem C78_col_major_square :
  forall (T : Type) (dot : list (T * T) -> T) dbg (a b c : sparse T) n fa fb,
    sp_mat a n n fa -> sp_mat b n n fb -> s_o a = ColMajor -> s_o b = ColMajor -> s_o c = ColMajor ->
    (Z.of_nat (S (n * n)) < 2 ^ 31)%Z ->
    exists s, mul_csrmultcsr dot dbg a b c = Ok s /\ s_o s = ColMajor /\ s_nnz s = n * n /\
      sp_mat s n n (meets_at (fun ps => dot (map (fun p => (snd p, fst p)) ps)) n fb fa).
Proof.
  intros T dot dbg a b c n fa fb Ha Hb Oa Ob Oc Bn.
  destruct (mul_csrmultcsr_lines dot dbg a b c n fa fb Ha Hb) as (s & E & O & Z & M); try congruence.
  rewrite Oc in *. exists s. split; [exact E|]. split; [exact O|]. split; [exact Z|].
  destruct M as (W & R & C & F & H). split; [exact W|]. split; [exact R|]. split; [exact C|]. split; [exact F|].
  intros i j Hi Hj v. rewrite <- H by auto. unfold meets_at.
  assert (EP : flat_map (fun q => match fa q j, fb i q with Some x, Some y => [(x, y)] | _, _ => [] end) (seq 0 n)
               = map (fun p => (snd p, fst p)) (meets n fb fa i j)).
  { unfold meets. rewrite map_flat_map. apply flat_map_ext_in. intros q _. destruct (fa q j), (fb i q); reflexivity. }
  rewrite EP. destruct (meets n fb fa i j); reflexivity.
Qed.
Print Assumptions C78_col_major_square.

(** ** Over a ring *)
Definition ring_dot {T} `{Scalar T} (ps : list (T * T)) : T := fold_left (fun acc p => s_fma acc (fst p) (snd p)) ps s0.

Lemma meets_ring {T} {SC : Scalar T} {RL : RingLaws T} n (f g : nat -> nat -> option T) i j :
  ring_dot (meets n f g i j) = mat_prod n (fun i j => dflt s0 (f i j)) (fun i j => dflt s0 (g i j)) i j.
Proof.
  rewrite <- prod_ss_ring. unfold ring_dot, meets, prod_ss_at. generalize (s0 (T := T)) as z. generalize (seq 0 n) as l.
  induction l as [|q t IH]; intros z; [reflexivity|]. cbn [flat_map fold_left]. rewrite fold_left_app, IH.
  destruct (f i q), (g q j); reflexivity.
Qed.
Lemma meets_at_ring {T} {SC : Scalar T} {RL : RingLaws T} (dot : list (T * T) -> T) n (f g : nat -> nat -> option T) i j :
  (forall ps, dot ps = ring_dot ps) ->
  dflt s0 (meets_at dot n f g i j) = mat_prod n (fun i j => dflt s0 (f i j)) (fun i j => dflt s0 (g i j)) i j.
Proof.
  intros Hd. rewrite <- meets_ring. unfold meets_at. destruct (meets n f g i j) as [|p t] eqn:E; [reflexivity|].
  cbn [dflt]. apply Hd.
Qed.

Theorem C78_row_major_ring :
  forall (T : Type) (SC : Scalar T), RingLaws T -> forall dbg (a b c : sparse T) n fa fb,
    sp_mat a n n fa -> sp_mat b n n fb -> s_o a = RowMajor -> s_o b = RowMajor -> s_o c = RowMajor ->
    (Z.of_nat (S (n * n)) < 2 ^ 31)%Z ->
    exists s fs, mul_csrmultcsr ring_dot dbg a b c = Ok s /\ sp_mat s n n fs /\
      forall i j, i < n -> j < n ->
        dflt s0 (fs i j) = mat_prod n (fun i j => dflt s0 (fa i j)) (fun i j => dflt s0 (fb i j)) i j.
Proof.
  intros T SC RL dbg a b c n fa fb Ha Hb Oa Ob Oc Bn.
  destruct (C78_row_major_square T ring_dot dbg a b c n fa fb Ha Hb Oa Ob Oc Bn) as (s & E & _ & _ & M).
  exists s. eexists. split; [exact E|]. split; [exact M|]. intros i j _ _. now apply meets_at_ring.
Qed.
Print Assumptions C78_row_major_ring.

(** Over a commutative ring a column-major call delivers B * A. *)
Theorem C78_col_major_ring :
  forall (T : Type) (SC : Scalar T), RingLaws T -> (forall x y : T, smul x y = smul y x) ->
    forall dbg (a b c : sparse T) n fa fb,
    sp_mat a n n fa -> sp_mat b n n fb -> s_o a = ColMajor -> s_o b = ColMajor -> s_o c = ColMajor ->
    (Z.of_nat (S (n * n)) < 2 ^ 31)%Z ->
    exists s fs, mul_csrmultcsr ring_dot dbg a b c = Ok s /\ sp_mat s n n fs /\
      forall i j, i < n -> j < n ->
        dflt s0 (fs i j) = mat_prod n (fun i j => dflt s0 (fb i j)) (fun i j => dflt s0 (fa i j)) i j.
Proof.
  intros T SC RL HC dbg a b c n fa fb Ha Hb Oa Ob Oc Bn.
  destruct (C78_col_major_square T ring_dot dbg a b c n fa fb Ha Hb Oa Ob Oc Bn) as (s & E & _ & _ & M).
  exists s. eexists. split; [exact E|]. split; [exact M|]. intros i j _ _. apply meets_at_ring.
  intros ps. unfold ring_dot. generalize (s0 (T := T)) as z. induction ps as [|p t IH]; intros z; [reflexivity|].
  cbn [map fold_left fst snd]. rewrite IH. unfold s_fma. now rewrite HC.
Qed.
Print Assumptions C78_col_major_ring.

(** ** What every successful call needs *)
Lemma wr_inv {T} (b : buf T) i v b' : wr b i v = Ok b' -> i < length b /\ b' = upd b i (Some v).
Proof. unfold wr. destruct (Nat.ltb_spec i (length b)); [|discriminate]. intros E. injection E as <-. auto. Qed.

Lemma forM_ok_steps {S} n (f : nat -> S -> res S) (I : nat -> S -> Prop) s s' :
  forM n f s = Ok s' -> I 0 s -> (forall i s s', i < n -> I i s -> f i s = Ok s' -> I (Datatypes.S i) s') -> I n s'.
Proof.
  revert s'. induction n as [|n IH]; intros s' E H0 Hstep.
  - unfold forM in E. cbn [seq foldM] in E. injection E as <-. exact H0.
  - rewrite forM_S in E. apply bind_ok in E as (s1 & E1 & E2). eapply (Hstep n s1); eauto.
Qed.

Lemma call1_inv {T} (dot : list (T * T) -> T) m n k (xa xb : csr T) ic ic' :
  csrmultcsr1 dot m n k xa xb ic = Ok ic' ->
  length ic' = length ic /\ (1 <= m -> m < length ic) /\ (forall i, m < i -> nth_error ic' i = nth_error ic i) /\
  (1 <= m -> m < length (c_ptr xa)).
Proof.
  unfold csrmultcsr1. intros E. apply bind_ok in E as (ic1 & E1 & E). apply wr_inv in E1 as (L1 & ->).
  pose proof (forM_ok_steps m _ (fun i x => length x = length ic /\ (1 <= i -> i < length ic) /\
     (forall q, i < q -> nth_error x q = nth_error ic q) /\ (1 <= i -> i < length (c_ptr xa))) _ _ E) as H. apply H.
  - rewrite upd_length. repeat split; try lia. intros q Hq. rewrite nth_error_upd_ne by lia. reflexivity.
  - intros i x x' Hi (HL & _ & HC & _) Es. apply bind_ok in Es as (r & Er & Es). apply bind_ok in Es as (p & Ep & Es).
    apply wr_inv in Es as (HW & ->). rewrite upd_length. split; [exact HL|]. split; [lia|]. split.
    + intros q Hq. rewrite nth_error_upd_ne by lia. apply HC. lia.
    + intros _. unfold csr_prod_row in Er. apply bind_ok in Er as (ra & Er & _). unfold csr_row in Er.
      apply bind_ok in Er as (b & _ & Er). apply bind_ok in Er as (e & Ee & _). apply rd_lt in Ee. exact Ee.
Qed.

Lemma mul_csr_inv {T} (dot : list (T * T) -> T) dbg (a b c s : sparse T) :
  (Z.of_nat (s_rows a) < 2 ^ 31)%Z -> mul_csrmultcsr dot dbg a b c = Ok s ->
  (1 <= s_rows a -> s_rows a < length (s_off a)) /\ (1 <= s_rows a -> s_rows a <= s_cols b) /\
  length (s_off s) = s_cols b + 1 /\ s_rows s = s_rows a /\ s_cols s = s_cols b /\ s_o s = s_o c /\
  (forall i, s_rows a < i -> i <= s_cols b -> nth_error (s_off s) i = Some None).
Proof.
  intros Bm E. unfold mul_csrmultcsr in E. apply bind_ok in E as (u & _ & E). cbv zeta in E.
  apply bind_ok in E as (ic & E1 & E). apply bind_ok in E as (st & E2 & E). injection E as <-.
  rewrite to_int_small, Nat2Z.id in E1 by auto.
  apply call1_inv in E1 as (H1 & H2 & H3 & H4). cbn [c_ptr] in H4. rewrite map_length in H4.
  assert (HL : length (s_off (s_resize c (s_rows a) (s_cols b) 0)) = s_cols b + 1).
  { cbn [s_resize s_off]. unfold st_resize. destruct (Nat.eqb_spec (length (s_off c)) (s_cols b + 1)); auto. unfold alloc. now rewrite repeat_length. }
  unfold alloc in H1, H2, H3. rewrite repeat_length, HL in H1, H2. rewrite HL in H3.
  cbn [s_off s_rows s_cols s_o]. rewrite map_length.
  split; [exact H4|]. split; [intros H; specialize (H2 H); lia|]. split; [exact H1|]. split; [reflexivity|]. split; [reflexivity|]. split; [reflexivity|].
  intros i Hi Hi2. rewrite nth_error_map, H3 by auto. rewrite nth_error_repeat by lia. reflexivity.
Qed.

(** A column-major A with more rows than columns, or a product with more rows than
    columns, never goes through: MKL runs past an array. *)
Theorem C78_tall_operands_refuted :
  forall (T : Type) (dot : list (T * T) -> T) dbg (a b c : sparse T) m n fa,
    sp_mat a m n fa -> (Z.of_nat m < 2 ^ 31)%Z ->
    (s_o a = ColMajor /\ n < m) \/ (1 <= m /\ s_cols b < m) ->
    forall s, mul_csrmultcsr dot dbg a b c <> Ok s.
Proof.
  intros T dot dbg a b c m n fa Ha Bm H s E.
  destruct Ha as ((Wl & _) & Ra & Ca & _). apply mul_csr_inv in E as (H1 & H2 & _); [|congruence].
  destruct H as [[O H]|[H0 H]].
  - unfold s_minor in Wl. rewrite O in Wl. rewrite Wl, Ca in H1. lia.
  - rewrite Ra in *. lia.
Qed.
Print Assumptions C78_tall_operands_refuted.

(** A well-formed result requires a square product. *)
Theorem C78_well_formed_only_square :
  forall (T : Type) (dot : list (T * T) -> T) dbg (a b c s : sparse T),
    1 <= s_rows a -> (Z.of_nat (s_rows a) < 2 ^ 31)%Z ->
    mul_csrmultcsr dot dbg a b c = Ok s -> sp_wf s -> s_rows a = s_cols b.
Proof.
  intros T dot dbg a b c s H0 Bm E (Wl & _ & _ & Wo & _).
  apply mul_csr_inv in E as (_ & H2 & H3 & H4 & H5 & H6 & H7); [|exact Bm]. specialize (H2 H0).
  unfold s_minor in *. rewrite H4, H5 in *. destruct (s_o s).
  - lia.
  - destruct (Nat.eq_dec (s_rows a) (s_cols b)) as [|Hne]; [assumption|exfalso].
    destruct (Wo (s_rows a)) as (p & e & _ & Ee & _); [lia|].
    apply rd_ok in Ee. rewrite H7 in Ee by lia. discriminate.
Qed.
Print Assumptions C78_well_formed_only_square.

(** ** Examples *)
(** A = [[1 2][0 3]], B = [[4 0][5 6]]; A * B = [[14 12][15 18]], B * A = [[4 8][5 28]]. *)
Definition csrA (o : orient) : sparse Z :=
  match o with
  | RowMajor => mkSparse RowMajor 2 2 4 (map Some [1; 2; 3]%Z) (map Some [0; 1; 1]) (map Some [0; 2; 3])
  | ColMajor => mkSparse ColMajor 2 2 4 (map Some [1; 2; 3]%Z) (map Some [0; 0; 1]) (map Some [0; 1; 3])
  end.
Definition csrB (o : orient) : sparse Z :=
  match o with
  | RowMajor => mkSparse RowMajor 2 2 4 (map Some [4; 5; 6]%Z) (map Some [0; 0; 1]) (map Some [0; 1; 3])
  | ColMajor => mkSparse ColMajor 2 2 4 (map Some [4; 5; 6]%Z) (map Some [0; 1; 1]) (map Some [0; 2; 3])
  end.
Definition csrA_f (i j : nat) : option Z :=
  match i, j with 0, 0 => Some 1%Z | 0, 1 => Some 2%Z | 1, 1 => Some 3%Z | _, _ => None end.
Definition csrB_f (i j : nat) : option Z :=
  match i, j with 0, 0 => Some 4%Z | 1, 0 => Some 5%Z | 1, 1 => Some 6%Z | _, _ => None end.
Lemma csrA_mat o : sp_mat (csrA o) 2 2 csrA_f.
Proof.
  apply sp_mat_lines. destruct o; (split; [reflexivity|split; [reflexivity|split; [reflexivity|]]]).
  - exists [[(0, 1%Z); (1, 2%Z)]; [(1, 3%Z)]]. split; [|split; [reflexivity|split]].
    + split; [reflexivity|]. exists [], []. repeat split.
    + repeat constructor.
    + intros [|[|i]] [|[|j]] Hi Hj; cbn in Hi, Hj; try lia; reflexivity.
  - exists [[(0, 1%Z)]; [(0, 2%Z); (1, 3%Z)]]. split; [|split; [reflexivity|split]].
    + split; [reflexivity|]. exists [], []. repeat split.
    + repeat constructor.
    + intros [|[|i]] [|[|j]] Hi Hj; cbn in Hi, Hj; try lia; reflexivity.
Qed.
Lemma csrB_mat o : sp_mat (csrB o) 2 2 csrB_f.
Proof.
  apply sp_mat_lines. destruct o; (split; [reflexivity|split; [reflexivity|split; [reflexivity|]]]).
  - exists [[(0, 4%Z)]; [(0, 5%Z); (1, 6%Z)]]. split; [|split; [reflexivity|split]].
    + split; [reflexivity|]. exists [], []. repeat split.
    + repeat constructor.
    + intros [|[|i]] [|[|j]] Hi Hj; cbn in Hi, Hj; try lia; reflexivity.
  - exists [[(0, 4%Z); (1, 5%Z)]; [(1, 6%Z)]]. split; [|split; [reflexivity|split]].
    + split; [reflexivity|]. exists [], []. repeat split.
    + repeat constructor.
    + intros [|[|i]] [|[|j]] Hi Hj; cbn in Hi, Hj; try lia; reflexivity.
Qed.

Example C78_nonvacuous :
  sp_mat (csrA RowMajor) 2 2 csrA_f /\ sp_mat (csrB RowMajor) 2 2 csrB_f /\
  mul_csrmultcsr ring_dot true (csrA RowMajor) (csrB RowMajor) (s_default RowMajor)
  = Ok (mkSparse RowMajor 2 2 4 (map Some [14; 12; 15; 18]%Z) (map Some [0; 1; 0; 1]) (map Some [0; 2; 4])).
Proof. split; [apply csrA_mat|]. split; [apply csrB_mat|]. vm_compute. reflexivity. Qed.

(** Column-major operands: the product is wrong (4 instead of 14 at (0,0)). *)
Theorem C78_col_major_product_refuted :
  exists (a b s : sparse Z) fa fb fs,
    sp_mat a 2 2 fa /\ sp_mat b 2 2 fb /\ s_o a = ColMajor /\ s_o b = ColMajor /\
    mul_csrmultcsr ring_dot true a b (s_default ColMajor) = Ok s /\ sp_mat s 2 2 fs /\
    dflt 0%Z (fs 0 0) <> mat_prod 2 (fun i j => dflt 0%Z (fa i j)) (fun i j => dflt 0%Z (fb i j)) 0 0.
Proof.
  destruct (C78_col_major_square Z ring_dot true (csrA ColMajor) (csrB ColMajor) (s_default ColMajor) 2 csrA_f csrB_f
     (csrA_mat _) (csrB_mat _) eq_refl eq_refl eq_refl eq_refl) as (s & E & _ & _ & M).
  exists (csrA ColMajor), (csrB ColMajor), s, csrA_f, csrB_f. eexists.
  split; [apply csrA_mat|]. split; [apply csrB_mat|]. split; [reflexivity|]. split; [reflexivity|].
  split; [exact E|]. split; [exact M|]. vm_compute. discriminate.
Qed.
Print Assumptions C78_col_major_product_refuted.

(** Structural zeros are kept: [[1 1]] over [[1][-1]] padded to 2x2. *)
Example C78_cancelled_element_stored :
  exists s, mul_csrmultcsr ring_dot true
     (mkSparse RowMajor 2 2 4 (map Some [1; 1]%Z) (map Some [0; 1]) (map Some [0; 2; 2]))
     (mkSparse RowMajor 2 2 4 (map Some [1; -1]%Z) (map Some [0; 0]) (map Some [0; 1; 2])) (s_default RowMajor) = Ok s /\
   stored s 0 0 0%Z.
Proof. eexists. split; [vm_compute; reflexivity|]. exists 0. split; [|split; reflexivity]. exists 0, 1. repeat split; auto with arith. Qed.
