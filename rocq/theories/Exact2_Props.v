(** Exact characterisations, second part: which elements the storage-order loops
    combine when the orientations are not the ones they were written for, and
    what row-major sparse matrices do. *)
From Verif Require Import Base BaseLemmas Dense_Model Dense_Spec Dense_Proofs Striped_Proofs Dense2_Proofs Dense3_Proofs
  Dense_Props Sparse_Model Sparse_Spec Sparse_Proofs Sparse2_Proofs Sparse3_Proofs Sparse4_Proofs SparseT_Proofs
  SparseP_Proofs Sparse_Props Mult_Model Mult_Spec Mult_Proofs Mult_Props Exact_Props.

(** Place of element (i, j) of an r x c matrix in its memory, and back. *)
Definition place (o : orient) (r c i j : nat) : nat :=
  match o with RowMajor => i * c + j | ColMajor => i + j * r end.
Definition row_at (o : orient) (r c p : nat) : nat := match o with RowMajor => p / c | ColMajor => p mod r end.
Definition col_at (o : orient) (r c p : nat) : nat := match o with RowMajor => p mod c | ColMajor => p / r end.

(** The r x c matrix [f], stored in orientation [o], read as if it were stored in
    orientation [o']. *)
Definition reread {T} (o' o : orient) (r c : nat) (f : nat -> nat -> T) (i j : nat) : T :=
  f (row_at o r c (place o' r c i j)) (col_at o r c (place o' r c i j)).

Lemma row_at_lt o r c p : p < r * c -> row_at o r c p < r.
Proof.
  intros H. unfold row_at. destruct o.
  - apply Nat.div_lt_upper_bound; nia.
  - apply Nat.mod_upper_bound; nia.
Qed.
Lemma col_at_lt o r c p : p < r * c -> col_at o r c p < c.
Proof.
  intros H. unfold col_at. destruct o.
  - apply Nat.mod_upper_bound; nia.
  - apply Nat.div_lt_upper_bound; nia.
Qed.
Lemma place_at o r c p : p < r * c -> place o r c (row_at o r c p) (col_at o r c p) = p.
Proof.
  intros H. unfold place, row_at, col_at. destruct o.
  - pose proof (Nat.div_mod p c ltac:(nia)). nia.
  - pose proof (Nat.div_mod p r ltac:(nia)). nia.
Qed.
Lemma place_lt o r c i j : i < r -> j < c -> place o r c i j < r * c.
Proof. intros. unfold place. destruct o; nia. Qed.

(** Reading it in its own orientation gives the matrix itself. *)
Lemma reread_same : forall (T : Type) o r c (f : nat -> nat -> T) i j, i < r -> j < c -> reread o o r c f i j = f i j.
Proof.
  intros T o r c f i j Hi Hj. unfold reread, row_at, col_at, place. destruct o.
  - rewrite Nat.div_add_l by lia. rewrite Nat.div_small, Nat.add_0_r by lia.
    rewrite Nat.add_comm, Nat.mod_add, Nat.mod_small by lia. reflexivity.
  - rewrite Nat.mod_add, Nat.mod_small by lia. rewrite Nat.div_add, Nat.div_small by lia. reflexivity.
Qed.

(** The same memory under another orientation. *)
Definition recast {T} (o' : orient) (d : dense T) : dense T :=
  mkDense (own_shape o' (d_rows d) (d_cols d)) (d_full d) (d_buf d) (d_own d).

Lemma recast_mat {T} o' (d : dense T) r c f : is_mat d r c f ->
  is_mat (recast o' d) r c (reread o' (d_orient d) r c f).
Proof.
  intros [W V]. pose proof V as (R & C & _). pose proof W as (Hs & Hb & Hl).
  split; [unfold recast, wf_mem, d_rows, d_cols in *; cbn; auto|].
  apply view_from_cells; [exact R|exact C|]. intros i j Hi Hj.
  pose proof (place_lt o' r c i j Hi Hj) as Hp.
  pose proof (view_cell d r c f (row_at (d_orient d) r c (place o' r c i j)) (col_at (d_orient d) r c (place o' r c i j)) V
    (row_at_lt _ _ _ _ Hp) (col_at_lt _ _ _ _ Hp)) as E.
  rewrite own_addr_lin in E by exact W. rewrite R, C in E.
  assert (El : forall o i j, lin o r c i j = place o r c i j) by (intros [|] x y; cbn; lia).
  rewrite El, place_at in E by exact Hp.
  assert (Ea : addr (d_sh (recast o' d)) i j = place o' r c i j).
  { unfold addr, recast, getLdRows, getLdColumns, place, d_rows, d_cols in *; cbn. destruct o'; rewrite ?R, ?C; lia. }
  rewrite Ea. exact E.
Qed.

Lemma mul_dd_recast {T1 T2 T3} (fma : T3 -> T1 -> T2 -> T3) zero dbg (a : dense T1) (b : dense T2) c :
  wf_mem a -> wf_mem b ->
  mul_dd fma zero dbg a b c = mul_dd fma zero dbg (recast ColMajor a) (recast ColMajor b) c.
Proof.
  intros (Sa & Ba & _) (Sb & Bb & _). unfold mul_dd, iter_nth. cbn [recast d_sh d_buf own_shape sh_sub sh_base d_rows d_cols sh_rows sh_cols].
  rewrite Sa, Sb, Ba, Bb. reflexivity.
Qed.

(** C24.  The native product for every orientation of the operands: each operand
    enters as if its memory held a column-major matrix.  For column-major
    operands this is the product of the operands. *)
Theorem C24_any_orientation_exact :
  forall (T1 T2 T3 : Type) (fma : T3 -> T1 -> T2 -> T3) (zero : T3) dbg
      (a : dense T1) (b : dense T2) (c : dense T3) m n l fa fb,
    is_mat a m n fa -> is_mat b n l fb -> fresh_ok c -> d_orient c = ColMajor ->
    exists d, mul_dd fma zero dbg a b c = Ok d /\ d_orient d = ColMajor /\
      is_mat d m l (fun i j => fold_left (fun acc k =>
          fma acc (reread ColMajor (d_orient a) m n fa i k) (reread ColMajor (d_orient b) n l fb k j)) (seq 0 n) zero).
Proof.
  intros T1 T2 T3 fma zero dbg a b c m n l fa fb Ha Hb Hf Oc.
  rewrite mul_dd_recast by (try apply Ha; apply Hb).
  pose proof (recast_mat ColMajor a m n fa Ha) as [Wa Va].
  pose proof (recast_mat ColMajor b n l fb Hb) as [Wb Vb].
  destruct (mul_dd_spec fma zero dbg _ _ c m n l _ _ Va (or_introl Wa) eq_refl Vb (or_introl Wb) eq_refl Hf Oc)
    as (d & E & M & _ & O & _).
  exists d. split; [exact E|]. split; [exact O|]. exact M.
Qed.
Print Assumptions C24_any_orientation_exact.

(** Row-major square operands: the result is the transpose of the product B A:
    its element (i, j) is the sum over k of a(k,i) b(j,k). *)
Theorem C24_row_major_square_exact :
  forall (T1 T2 T3 : Type) (fma : T3 -> T1 -> T2 -> T3) (zero : T3) dbg
      (a : dense T1) (b : dense T2) n fa fb,
    is_mat a n n fa -> d_orient a = RowMajor -> is_mat b n n fb -> d_orient b = RowMajor ->
    exists d, mul_dd fma zero dbg a b (d_default ColMajor) = Ok d /\ d_orient d = ColMajor /\
      is_mat d n n (fun i j => fold_left (fun acc k => fma acc (fa k i) (fb j k)) (seq 0 n) zero).
Proof.
  intros T1 T2 T3 fma zero dbg a b n fa fb Ha Oa Hb Ob.
  destruct (C24_any_orientation_exact T1 T2 T3 fma zero dbg a b (d_default ColMajor) n n n fa fb Ha Hb
    (default_fresh _) eq_refl) as (d & E & O & M).
  exists d. split; [exact E|]. split; [exact O|]. eapply is_mat_ext; [exact M|]. intros i j Hi Hj. cbv beta.
  rewrite Oa, Ob. apply fold_left_ext. intros k acc Hk. apply in_seq in Hk.
  unfold reread, row_at, col_at, place.
  rewrite !Nat.mod_add, !Nat.div_add, !Nat.mod_small, !Nat.div_small by lia. reflexivity.
Qed.
Print Assumptions C24_row_major_square_exact.

Example C24_any_orientation_nonvacuous :
  is_mat demoRsq 2 2 (fun i j => Z.of_nat (2 * i + j + 1)) /\
  exists d, mul_dd s_fma 0%Z true demoRsq demoRsq (d_default ColMajor) = Ok d /\ d_buf d = map Some [7; 10; 15; 22]%Z.
Proof.
  split; [exact (proj1 C24_row_major_refuted)|]. eexists. vm_compute. auto.
Qed.

(** C19.  Plus and minus of dense matrices, every combination of the three
    orientations: element (i, j) of the result is made of the two elements stored
    at the place of (i, j). *)
Lemma d_binop_recast {A B C} (op : A -> B -> C) dbg o (a : dense A) (b : dense B) :
  wf_mem a -> wf_mem b ->
  d_binop op dbg o a b = d_binop op dbg o (recast o a) (recast o b).
Proof.
  intros (Sa & Ba & _) (Sb & Bb & _). unfold d_binop, iter_addrs.
  cbn [recast d_sh d_buf own_shape sh_sub sh_base d_rows d_cols sh_rows sh_cols].
  rewrite Sa, Ba, Bb. reflexivity.
Qed.

Theorem C19_any_orientation_exact :
  forall (A B C : Type) (op : A -> B -> C) dbg o (a : dense A) (b : dense B) r c fa fb,
    is_mat a r c fa -> is_mat b r c fb ->
    exists d, d_binop op dbg o a b = Ok d /\ d_orient d = o /\
      is_mat d r c (fun i j => op (reread o (d_orient a) r c fa i j) (reread o (d_orient b) r c fb i j)).
Proof.
  intros A B C op dbg o a b r c fa fb Ha Hb.
  rewrite d_binop_recast by (try apply Ha; apply Hb).
  destruct (d_binop_spec op dbg (recast o a) (recast o b) r c _ _ (recast_mat o a r c fa Ha) (recast_mat o b r c fb Hb) eq_refl)
    as (d & E & M & O & _).
  exists d. split; [exact E|]. split; [exact O|exact M].
Qed.
Print Assumptions C19_any_orientation_exact.

(** C21.  Dense op Sparse with a row-major dense operand: the result keeps the
    dense operand's elements, and the sparse operand is applied at the places
    where a column-major matrix would hold its elements. *)
Lemma ds_binop_recast {A B C} (cv : A -> C) (aop : C -> B -> C) dbg (a : dense A) (b : sparse B) d :
  ds_binop cv aop dbg (recast ColMajor a) b = Ok d ->
  ds_binop cv aop dbg a b = Ok (recast (d_orient a) d).
Proof.
  unfold ds_binop. cbn [recast d_conv_same d_sh d_buf own_shape d_rows d_cols sh_rows sh_cols d_orient sh_o].
  destruct (cassert dbg _) as [?| | | |]; cbn [bind]; try discriminate.
  destruct (cassert dbg _) as [?| | | |]; cbn [bind]; try discriminate.
  destruct (s_nlines b) as [n| | | |]; cbn [bind]; try discriminate.
  intros E. apply bind_ok in E as (m & Em & E). rewrite Em; cbn [bind]. injection E as <-. reflexivity.
Qed.

Theorem C21_any_orientation_exact :
  forall (A B C : Type) (cv : A -> C) (aop : C -> B -> C) dbg (a : dense A) (b : sparse B) r c fa fb,
    is_mat a r c fa -> sp_mat b r c fb -> s_o b = ColMajor ->
    exists d, ds_binop cv aop dbg a b = Ok d /\ d_orient d = d_orient a /\
      is_mat d r c (fun i j =>
        match reread (d_orient a) ColMajor r c fb i j with
        | Some y => aop (cv (fa i j)) y
        | None => cv (fa i j)
        end).
Proof.
  intros A B C cv aop dbg a b r c fa fb Ha Hb Ob.
  destruct (ds_binop_spec cv aop dbg (recast ColMajor a) b r c _ fb (recast_mat ColMajor a r c fa Ha) Hb eq_refl Ob)
    as (d & E & M & O & _).
  exists (recast (d_orient a) d). split; [now apply ds_binop_recast|]. split; [reflexivity|].
  eapply is_mat_ext; [exact (recast_mat (d_orient a) d r c _ M)|]. intros i j Hi Hj. cbv beta.
  rewrite O. unfold reread at 1.
  pose proof (place_lt (d_orient a) r c i j Hi Hj) as Hp.
  set (i' := row_at ColMajor r c (place (d_orient a) r c i j)).
  set (j' := col_at ColMajor r c (place (d_orient a) r c i j)).
  assert (E1 : reread ColMajor (d_orient a) r c fa i' j' = fa i j).
  { unfold reread. unfold i', j'. rewrite place_at by exact Hp.
    exact (reread_same _ (d_orient a) r c fa i j Hi Hj). }
  rewrite E1. unfold reread. fold i' j'. reflexivity.
Qed.
Print Assumptions C21_any_orientation_exact.

(** C21.  Sparse - Dense always is Dense - Sparse. *)
Theorem C21_sparse_minus_dense_exact :
  forall (T : Type) (S : Scalar T) dbg (a : sparse T) (b : dense T) r c fa fb,
    sp_mat a r c fa -> is_mat b r c fb -> s_o a = ColMajor -> d_orient b = ColMajor ->
    exists d, sd_binop (fun x => x) ssub dbg a b = Ok d /\
      is_mat d r c (fun i j => minus_at (fb i j) (fa i j)).
Proof.
  intros T S dbg a b r c fa fb Ha Hb Oa Ob.
  destruct (C21_mixed_plus_minus T S dbg b a r c fb fa Hb Ha Ob Oa) as (_ & _ & d & E & M & _). eauto.
Qed.
Print Assumptions C21_sparse_minus_dense_exact.

(** Over a ring that is the negative of the difference asked for. *)
Theorem C21_sparse_minus_dense_negated :
  forall (T : Type) (S : Scalar T) (L : RingLaws T) (x : option T) (y : T),
    minus_at y x = sopp (ssub (dflt s0 x) y).
Proof.
  intros T S L x y. assert (Hn : forall u : T, sadd u s0 = u) by (intros; rewrite r_addC; apply r_add0l).
  assert (On : sopp (s0 : T) = s0) by (rewrite <- (r_add0l (sopp s0)); apply r_oppr).
  assert (Uniq : forall u v : T, sadd u v = s0 -> v = sopp u).
  { intros u v H. rewrite <- (r_add0l v). rewrite <- (r_oppr u), (r_addC u).
    rewrite <- r_addA, H. now rewrite Hn. }
  apply Uniq. destruct x as [x|]; cbn [minus_at dflt]; rewrite ?r_sub.
  - rewrite <- r_addA, (r_addA (sopp y)), (r_addC (sopp y) y), r_oppr, r_add0l. apply r_oppr.
  - rewrite r_add0l, r_addC. apply r_oppr.
Qed.
Print Assumptions C21_sparse_minus_dense_negated.

(** C15.  From a row-major dense to a row-major sparse matrix: with at most as
    many rows as columns the leading square block arrives transposed and the
    other columns are lost; with more rows than columns the conversion accesses
    memory outside its arrays. *)
Lemma widen_row {T} (s : sparse T) r w c f : sp_mat s r w f -> s_o s = RowMajor -> w <= c ->
  sp_mat (mkSparse RowMajor r c (r * c) (s_val s) (s_key s) (s_off s)) r c
    (fun i j => if j <? w then f i j else None).
Proof.
  intros ((W1 & W2 & W3 & W4 & W5 & W6) & R & C & F & H) O Hw.
  set (t := mkSparse _ _ _ _ _ _ _).
  assert (Hmin : s_minor s = r) by (unfold s_minor; now rewrite O).
  assert (Hmaj : s_major s = w) by (unfold s_major; now rewrite O).
  assert (Hin : forall l p, in_line t l p <-> in_line s l p) by (intros; reflexivity).
  assert (Hst : forall i j v, stored t i j v <-> stored s i j v).
  { intros i j v. unfold stored, line_of, key_of. rewrite O. reflexivity. }
  split; [|split; [reflexivity|split; [reflexivity|split; [reflexivity|]]]].
  - rewrite Hmin in W1, W4. split; [exact W1|]. split; [exact W2|]. split; [exact W3|]. split; [exact W4|]. split.
    + intros l p Hp. destruct (W5 l p Hp) as (k & v & E1 & E2 & E3). exists k, v. split; [exact E1|]. split; [exact E2|].
      rewrite Hmaj in E3. cbn. lia.
    + exact W6.
  - intros i j Hi Hj v. rewrite Hst. destruct (Nat.ltb_spec j w) as [Hjw|Hjw]; [now apply H|].
    split; [discriminate|]. intros (p & P1 & P2 & P3). exfalso.
    destruct (W5 _ p P1) as (k & v' & E1 & _ & E3). unfold key_of in P2. rewrite O in P2.
    rewrite P2 in E1. injection E1 as <-. lia.
Qed.

Lemma count2_le_cols r w c p : w <= c -> count2 r w p <= count2 r c p.
Proof.
  intros H. unfold count2. generalize (seq 0 r) as ls. induction ls as [|l t IH]; cbn [flat_map]; [auto|].
  rewrite !filter_app, !app_length. apply Nat.add_le_mono; [|exact IH].
  replace c with (w + (c - w)) by lia. rewrite seq_app, map_app, filter_app, app_length. lia.
Qed.

Definition is_ub {A} (x : res A) : Prop := exists u, x = UB u.

Lemma foldM_ub {X S} (f : X -> S -> res S) (Inv : S -> Prop) l : forall s,
  Inv s ->
  (forall x s, In x l -> Inv s -> (exists s', f x s = Ok s' /\ Inv s') \/ is_ub (f x s)) ->
  ((exists s', foldM f l s = Ok s' /\ Inv s') \/ is_ub (foldM f l s)) /\
  ((exists x, In x l /\ forall s, Inv s -> is_ub (f x s)) -> is_ub (foldM f l s)).
Proof.
  induction l as [|x t IH]; intros s Hs Hall; cbn [foldM].
  { split; [left; now exists s|]. intros (y & [] & _). }
  assert (Hall' : forall z s, In z t -> Inv s -> (exists s', f z s = Ok s' /\ Inv s') \/ is_ub (f z s))
    by (intros z s2 Hz; apply Hall; now right).
  destruct (Hall x s (or_introl eq_refl) Hs) as [(s' & E & Hs')|(u & E)]; rewrite E; cbn [bind].
  - destruct (IH s' Hs' Hall') as (I1 & I2). split; [exact I1|]. intros (y & [<- | Hy] & Hf).
    + destruct (Hf s Hs) as (u & Eu). rewrite E in Eu. discriminate.
    + apply I2. now exists y.
  - split; [right|intros _]; now exists u.
Qed.

Theorem C15_row_major_source_exact :
  forall (T U : Type) (cv : T -> U) (chk : T -> bool) (d : dense T) r c f,
    is_mat d r c f -> d_orient d = RowMajor ->
    (r <= c -> exists s, s_of_dense cv chk RowMajor d = Ok s /\ s_o s = RowMajor /\
       sp_mat s r c (fun i j => if j <? r then (if chk (f j i) then Some (cv (f j i)) else None) else None)) /\
    (c < r -> 1 <= c -> exists u, s_of_dense cv chk RowMajor d = UB u).
Proof.
  intros T U cv chk d r c f M O. pose proof M as [W V]. pose proof V as (R & C & _). pose proof W as (Hs & Hb & Hl).
  assert (Hc : d_count chk d = Ok (count2 r c (fun i j => chk (f i j)))).
  { apply d_count_spec; auto. now left. }
  unfold s_of_dense. rewrite Hc; cbn [bind]. set (nnz := count2 r c (fun i j => chk (f i j))).
  split.
  - intros Hrc.
    set (dq := mkDense (mkShape RowMajor r r true 0 c 0) (r * r) (d_buf d) false).
    destruct (s_of_dense_lines cv chk RowMajor nnz dq (fun l k => f k l) (fun l k => k * c + l)) as (s & E & O' & _ & Ms).
    + intros l Hl'. cbn [fst snd orient_eqb d_orient dq d_sh sh_o]. change (d_cols dq) with r.
      rewrite cur_cr by (cbn in *; lia). f_equal.
    + intros l k Hl' Hk. cbn in Hl', Hk. change (d_buf dq) with (d_buf d). apply rd_ok.
      pose proof (view_cell d r c f k l V Hk ltac:(lia)) as E. rewrite own_addr_lin in E by exact W.
      rewrite O, R, C in E. exact E.
    + change (count2 r r (fun l k => chk (f k l)) <= nnz).
      pose proof (count2_swap r r (fun i j => chk (f i j))) as Esw. cbv beta in Esw. rewrite Esw. unfold nnz.
      now apply count2_le_cols.
    + cbv beta zeta in Ms. change (d_rows dq) with r in Ms. change (d_cols dq) with r in Ms.
      exists (mkSparse RowMajor r c (r * c) (s_val s) (s_key s) (s_off s)).
      split; [|split; [reflexivity|exact (widen_row s r r c _ Ms O' Hrc)]].
      unfold s_of_dense_nnz in *. rewrite O. change (d_orient dq) with RowMajor in E.
      cbn [orient_eqb] in *. change (d_rows dq) with r in E. change (d_cols dq) with r in E. rewrite R, C.
      apply bind_ok in E as (st & Est & E).
      assert (Est' : forM r (fun l '(vs, ks, offs, n) =>
          do offs <- wr offs l n;
          do ads <- cur_addrs (d_sh d) DCol DRow l;
          do st <- foldM (fun '(k, a) '(vs, ks, n) =>
              do v <- rd (d_buf d) a;
              if chk v then
                do vs <- wr vs n (cv v);
                do ks <- wr ks n k;
                Ok (vs, ks, S n)
              else Ok (vs, ks, n)) (enum ads) (vs, ks, n);
          let '(vs, ks, n) := st in Ok (vs, ks, offs, n)) (alloc nnz, alloc nnz, alloc (r + 1), 0) = Ok st).
      { rewrite <- Est. unfold forM. apply foldM_ext. intros l [[[vs ks] offs] n] _.
        apply bind_ext. intros offs' _.
        assert (Ec : cur_addrs (d_sh d) DCol DRow l = cur_addrs (d_sh dq) DCol DRow l).
        { unfold cur_addrs, cur_begin, cur_end, cur_stride, getLdColumns, d_orient, d_rows, d_cols in *.
          cbn [dq d_sh sh_o sh_sub sh_base sh_rows sh_cols sh_ldc]. now rewrite O, Hs, Hb, R, C. }
        now rewrite Ec. }
      rewrite Est'. cbn [bind]. destruct st as [[[vs ks] offs] n].
      apply bind_ok in E as (offs' & Eo & E). rewrite Eo. cbn [bind]. injection E as <-. reflexivity.
  - intros Hcr Hc1. unfold s_of_dense_nnz. rewrite O. cbn [orient_eqb]. rewrite R.
    set (Inv1 := fun st : buf U * buf nat * buf nat * nat => length (snd (fst st)) = r + 1).
    assert (Hub : forall {A B} (x : res A) (k : A -> res B), is_ub x -> is_ub (bind x k))
      by (intros A B x k (u & ->); now exists u).
    assert (Hrd : forall a, (exists v, rd (d_buf d) a = Ok v) \/ is_ub (rd (d_buf d) a)).
    { intros a. unfold rd. destruct (nth_error (d_buf d) a) as [[v|]|]; [left; now exists v|right; now exists UninitRead|right; now exists OOBRead]. }
    assert (Hwr : forall {A} (b : buf A) p v, (exists b', wr b p v = Ok b' /\ length b' = length b) \/ is_ub (wr b p v)).
    { intros A b p v. unfold wr, wrc. destruct (p <? length b); [left|right; now exists OOBWrite].
      eexists; split; [reflexivity|]. now rewrite upd_length. }
    assert (Hads : forall l, cur_addrs (d_sh d) DCol DRow l = Ok (map (fun k => k * c + l) (seq 0 r))).
    { intros l. unfold cur_addrs, cur_begin, cur_end, cur_stride, getLdColumns, d_orient, d_rows, d_cols in *.
      rewrite O, Hs, Hb, R, C. cbn [Nat.add]. rewrite ptr_loop_ok by nia. f_equal. apply map_ext. intros k. lia. }
    match goal with |- exists u, bind (forM r ?body ?st0) ?k = UB u => 
      assert (G : is_ub (forM r body st0)) end.
    { unfold forM. apply (foldM_ub _ Inv1).
      - unfold Inv1. cbn. apply alloc_length.
      - intros l [[[vs ks] offs] n] Hl' Hi. apply in_seq in Hl'. unfold Inv1 in *. cbn [fst snd] in *.
        destruct (Hwr _ offs l n) as [(o1 & E1 & L1)|H1]; [|right; now apply Hub]. rewrite E1. cbn [bind].
        rewrite Hads. cbn [bind].
        match goal with |- context [foldM ?g ?ll ?ss] => destruct (foldM_ub g (fun _ => True) ll ss Logic.I) as (I1 & _) end.
        + intros [k a] [[vs' ks'] n'] _ _.
          destruct (Hrd a) as [(v & Ev)|H2]; [rewrite Ev; cbn [bind]|right; now apply Hub].
          destruct (chk v); [|left; eauto].
          destruct (Hwr _ vs' n' (cv v)) as [(b1 & E2 & _)|H2]; [rewrite E2; cbn [bind]|right; now apply Hub].
          destruct (Hwr _ ks' n' k) as [(b2 & E3 & _)|H3]; [rewrite E3; cbn [bind]|right; now apply Hub]. left; eauto.
        + destruct I1 as [([[vs' ks'] n'] & E2 & _)|H2]; [rewrite E2; cbn [bind]|right; now apply Hub].
          left. eexists; split; [reflexivity|]. cbn. now rewrite L1.
      - exists (r - 1). split; [apply in_seq; lia|]. intros [[[vs ks] offs] n] Hi. unfold Inv1 in Hi. cbn [fst snd] in Hi.
        destruct (Hwr _ offs (r - 1) n) as [(o1 & E1 & L1)|H1]; [|now apply Hub]. rewrite E1. cbn [bind].
        rewrite Hads. cbn [bind]. apply Hub.
        match goal with |- is_ub (foldM ?g ?ll ?ss) => apply (foldM_ub g (fun _ => True) ll ss Logic.I) end.
        + intros [k a] [[vs' ks'] n'] _ _.
          destruct (Hrd a) as [(v & Ev)|H2]; [rewrite Ev; cbn [bind]|right; now apply Hub].
          destruct (chk v); [|left; eauto].
          destruct (Hwr _ vs' n' (cv v)) as [(b1 & E2 & _)|H2]; [rewrite E2; cbn [bind]|right; now apply Hub].
          destruct (Hwr _ ks' n' k) as [(b2 & E3 & _)|H3]; [rewrite E3; cbn [bind]|right; now apply Hub]. left; eauto.
        + exists (r - 1, (r - 1) * c + (r - 1)). split.
          * rewrite enum_map_seq. apply in_map_iff. exists (r - 1). split; [reflexivity|]. apply in_seq. lia.
          * intros [[vs' ks'] n'] _. apply Hub. exists OOBRead. unfold rd.
            replace (nth_error (d_buf d) ((r - 1) * c + (r - 1))) with (@None (option T)); [reflexivity|].
            symmetry. apply nth_error_None. rewrite Hl, R, C. nia. }
    apply Hub. exact G.
Qed.
Print Assumptions C15_row_major_source_exact.

Example C15_row_major_source_nonvacuous :
  exists s, s_of_dense (fun x => x) (fun _ => true) RowMajor
      (mkDense (own_shape RowMajor 2 3) 6 (map Some [1; 2; 3; 4; 5; 6]%Z) true) = Ok s /\
    firstn 4 (s_val s) = map Some [1; 4; 2; 5]%Z /\ s_off s = map Some [0; 2; 4].
Proof. eexists. vm_compute. auto. Qed.
