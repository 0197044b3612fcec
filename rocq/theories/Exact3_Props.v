(** Exact characterisations, third part: row-major sparse matrices.  The loops
    over the three arrays ignore the orientation, and every result gets one offset
    per column whatever its orientation.  Square matrices: a row-major operand
    enters as its transpose.  Other shapes: no row-major result is well formed. *)
From Verif Require Import Base BaseLemmas Dense_Model Dense_Spec Dense_Proofs Dense2_Proofs Dense3_Proofs
  Dense_Props Sparse_Model Sparse_Spec Sparse_Proofs Sparse2_Proofs Sparse3_Proofs Sparse4_Proofs SparseT_Proofs
  SparseF_Proofs SparseP_Proofs Sparse_Props Mult_Model Mult_Spec Mult_Proofs Mult2_Proofs Mult3_Proofs Mult_Props
  Exact_Props Exact2_Props.

(** The matrix itself for column-major storage, its transpose for row-major. *)
Definition tr {V} (o : orient) (f : nat -> nat -> V) : nat -> nat -> V :=
  match o with ColMajor => f | RowMajor => fun i j => f j i end.

(** The same three arrays under another orientation. *)
Definition relabel {T} (o : orient) (s : sparse T) : sparse T :=
  mkSparse o (s_rows s) (s_cols s) (s_full s) (s_val s) (s_key s) (s_off s).

Lemma relabel_mat {T} o (s : sparse T) n f : sp_mat s n n f ->
  sp_mat (relabel o s) n n (tr o (tr (s_o s) f)).
Proof.
  intros ((W1 & W2 & W3 & W4 & W5 & W6) & R & C & F & H).
  assert (Hmin : s_minor s = n) by (unfold s_minor; now destruct (s_o s)).
  assert (Hmaj : s_major s = n) by (unfold s_major; now destruct (s_o s)).
  assert (Hmin' : s_minor (relabel o s) = n) by (unfold s_minor; cbn; now destruct o).
  assert (Hmaj' : s_major (relabel o s) = n) by (unfold s_major; cbn; now destruct o).
  split; [|split; [exact R|split; [exact C|split; [exact F|]]]].
  - unfold sp_wf. rewrite Hmin', Hmaj'. rewrite Hmin in *. rewrite Hmaj in *. tauto.
  - intros i j Hi Hj v.
    assert (Hst : stored (relabel o s) i j v <->
              match o, s_o s with RowMajor, RowMajor | ColMajor, ColMajor => stored s i j v | _, _ => stored s j i v end).
    { unfold stored, line_of, key_of, in_line, relabel; cbn.
      destruct o; destruct (s_o s); reflexivity. }
    rewrite Hst. destruct o; destruct (s_o s); cbn [tr]; now apply H.
Qed.

Lemma relabel_o {T} o (s : sparse T) : s_o (relabel o s) = o.
Proof. reflexivity. Qed.
Lemma relabel_self {T} (s : sparse T) : relabel (s_o s) s = s.
Proof. destruct s; reflexivity. Qed.
Lemma relabel_twice {T} o o' (s : sparse T) : relabel o (relabel o' s) = relabel o s.
Proof. reflexivity. Qed.
Lemma tr_tr {V} o (f : nat -> nat -> V) i j : tr o (tr o f) i j = f i j.
Proof. destruct o; reflexivity. Qed.

(** ** C20: sums and differences of square matrices. *)
Lemma merge_relabel {A B C} (ca : A -> C) (ub : B -> C) op o o' (a : sparse A) (b : sparse B) :
  forall fuel ia ea ib eb st,
  merge ca ub op (relabel o a) (relabel o' b) fuel ia ea ib eb st = merge ca ub op a b fuel ia ea ib eb st.
Proof.
  induction fuel as [|fuel IH]; intros ia ea ib eb [[vs ks] n]; [reflexivity|]. cbn [merge].
  change (s_key (relabel o a)) with (s_key a). change (s_val (relabel o a)) with (s_val a).
  change (s_key (relabel o' b)) with (s_key b). change (s_val (relabel o' b)) with (s_val b).
  repeat match goal with
  | |- bind ?x _ = bind ?x _ => apply bind_ext; intros ? _
  | |- (if ?x then _ else _) = (if ?x then _ else _) => destruct x
  | |- merge _ _ _ _ _ _ _ _ _ _ _ = merge _ _ _ _ _ _ _ _ _ _ _ => apply IH
  | |- ?x = ?x => reflexivity
  end.
Qed.

Lemma s_binop_relabel {A B C} (ca : A -> C) (ub : B -> C) op dbg (a : sparse A) (b : sparse B) s :
  s_binop ca ub op dbg (relabel ColMajor a) (relabel ColMajor b) = Ok s ->
  s_binop ca ub op dbg a b = Ok (relabel (s_o a) s).
Proof.
  unfold s_binop. cbn [relabel s_rows s_cols s_off s_o].
  intros E. apply bind_ok in E as (u1 & E1 & E). rewrite E1; cbn [bind].
  apply bind_ok in E as (u2 & E2 & E). rewrite E2; cbn [bind].
  cbn [s_resize s_default s_o s_val s_key s_off s_rows s_cols s_full] in *.
  apply bind_ok in E as (offs & E3 & E). rewrite E3; cbn [bind].
  unfold s_nlines in *. cbn [relabel s_off] in E.
  destruct (length (s_off a)) as [|n]; cbn [bind] in *; [discriminate|].
  apply bind_ok in E as (st & E4 & E).
  match goal with |- bind ?x _ = _ => assert (E5 : x = Ok st) end.
  { rewrite <- E4. unfold forM. apply foldM_ext. intros l [[[vs ks] of'] p] _.
    do 4 (apply bind_ext; intros ? _).
    rewrite (merge_relabel ca ub op ColMajor ColMajor a b). reflexivity. }
  rewrite E5; cbn [bind]. destruct st as [[[vs ks] of'] p]. injection E as <-. reflexivity.
Qed.

Theorem C20_row_major_square :
  forall (T : Type) (S : Scalar T) dbg (a b : sparse T) n fa fb,
    sp_mat a n n fa -> sp_mat b n n fb -> s_o a = RowMajor -> s_o b = RowMajor ->
    (exists s, s_binop (fun x => x) (fun y => y) sadd dbg a b = Ok s /\ s_o s = RowMajor /\
       sp_mat s n n (fun i j => sum_at (fa i j) (fb i j))) /\
    (exists s, s_binop (fun x => x) sopp ssub dbg a b = Ok s /\ s_o s = RowMajor /\
       sp_mat s n n (fun i j => diff_at (fa i j) (fb i j))).
Proof.
  intros T S dbg a b n fa fb Ha Hb Oa Ob.
  pose proof (relabel_mat ColMajor a n fa Ha) as Ha'. pose proof (relabel_mat ColMajor b n fb Hb) as Hb'.
  destruct (C20_sparse_plus_minus T S dbg _ _ n n _ _ Ha' Hb' eq_refl eq_refl) as ((s1 & E1 & O1 & M1) & (s2 & E2 & O2 & M2)).
  split; [exists (relabel RowMajor s1)|exists (relabel RowMajor s2)].
  - split; [rewrite <- Oa; now apply s_binop_relabel|]. split; [reflexivity|].
    eapply sp_mat_ext; [exact (relabel_mat RowMajor s1 n _ M1)|]. intros i j _ _. now rewrite O1, Oa, Ob.
  - split; [rewrite <- Oa; now apply s_binop_relabel|]. split; [reflexivity|].
    eapply sp_mat_ext; [exact (relabel_mat RowMajor s2 n _ M2)|]. intros i j _ _. now rewrite O2, Oa, Ob.
Qed.
Print Assumptions C20_row_major_square.

(** ** C18, C15: transposition and conversion of square row-major matrices. *)
Lemma s_transpose_relabel {T} (m t : sparse T) :
  s_transpose (relabel ColMajor m) = Ok t -> s_transpose m = Ok (relabel (s_o m) t).
Proof.
  destruct m as [o r c fl vs0 ks0 os0].
  unfold s_transpose, s_nlines, s_range, s_nnz, s_new.
  cbn [relabel s_o s_rows s_cols s_off s_key s_val s_full].
  intros E. apply bind_ok in E as (n & E1 & E). rewrite E1; cbn [bind].
  apply bind_ok in E as (o1 & E2 & E). rewrite E2; cbn [bind].
  apply bind_ok in E as (o2 & E3 & E). rewrite E3; cbn [bind].
  apply bind_ok in E as (st & E4 & E). rewrite E4; cbn [bind]. destruct st as [[vs tk] cur]. injection E as <-. reflexivity.
Qed.

Theorem C18_row_major_square :
  forall (T : Type) (m : sparse T) n f, sp_mat m n n f -> s_o m = RowMajor -> 1 <= n ->
    exists t, s_transpose m = Ok t /\ s_o t = RowMajor /\ sp_mat t n n (fun i j => f j i).
Proof.
  intros T m n f Hm Om Hn. pose proof (relabel_mat ColMajor m n f Hm) as Hm'.
  destruct (s_transpose_spec _ n n _ Hm' eq_refl Hn) as (t & E & Ot & Mt & _).
  exists (relabel RowMajor t). split; [rewrite <- Om; now apply s_transpose_relabel|]. split; [reflexivity|].
  eapply sp_mat_ext; [exact (relabel_mat RowMajor t n _ Mt)|]. intros i j _ _. now rewrite Ot, Om.
Qed.
Print Assumptions C18_row_major_square.

Theorem C15_row_to_column_square :
  forall (T U : Type) (cv : T -> U) (s : sparse T) n f, sp_mat s n n f -> s_o s = RowMajor -> 1 <= n ->
    exists t, s_conv cv ColMajor s = Ok t /\ s_o t = ColMajor /\ sp_mat t n n (fun i j => option_map cv (f i j)).
Proof.
  intros T U cv s n f Hs Os Hn.
  destruct (C18_row_major_square T s n f Hs Os Hn) as (t & E & Ot & Mt).
  destruct (s_conv_same cv t n n _ Mt) as (u & Eu & Ou & Mu).
  pose proof Hs as (_ & R & C & _). pose proof Mt as (_ & Rt & Ct & _).
  unfold s_conv in *. rewrite Os, Ot in *. cbn [orient_eqb] in *. rewrite E. cbn [bind] in *. injection Eu as <-.
  eexists. split; [reflexivity|]. split; [reflexivity|].
  rewrite R, C. rewrite Rt, Ct in Mu.
  eapply sp_mat_ext; [exact (relabel_mat ColMajor _ n _ Mu)|]. intros i j _ _. reflexivity.
Qed.
Print Assumptions C15_row_to_column_square.

(** Not square: whatever comes out is not a well-formed matrix. *)
Lemma wr_len {A} (b b' : buf A) p v : wr b p v = Ok b' -> length b' = length b.
Proof.
  unfold wr, wrc. destruct (p <? length b); [|discriminate]. intros [= <-]. apply upd_length.
Qed.

Theorem C18_row_major_not_square_exact :
  forall (T : Type) (m : sparse T) r c f, sp_mat m r c f -> s_o m = RowMajor -> r <> c ->
    (forall t, s_transpose m = Ok t -> ~ sp_wf t) /\
    ((exists i j v, i < r /\ j < c /\ r <= j /\ f i j = Some v) -> exists u, s_transpose m = UB u).
Proof.
  intros T m r c f Hm Om Hne. pose proof Hm as (Wf & R & C & F & H). split.
  - intros t E Wt. unfold s_transpose in E.
    apply bind_ok in E as (n & E1 & E). apply bind_ok in E as (o1 & E2 & E).
    apply bind_ok in E as (o2 & E3 & E). apply bind_ok in E as ([[vs tk] cur] & E4 & E). injection E as <-.
    destruct Wt as (L & _). unfold s_minor in L. cbn [s_off s_o s_rows s_cols s_new] in L. rewrite Om, C in L.
    assert (L1 : length o1 = r + 1).
    { refine (foldM_inv_ok _ (fun o => length o = r + 1) _ _ _ _ _ E2).
      - cbn [s_new s_off]. rewrite map_length, alloc_length. now rewrite R.
      - intros l s s' _ Hs Es. apply bind_ok in Es as (ks & _ & Es).
        refine (foldM_inv_ok _ (fun o => length o = r + 1) _ _ _ Hs _ Es).
        intros p s1 s2 _ H1 H2. apply bind_ok in H2 as (k & _ & H2). apply bind_ok in H2 as (x & _ & H2).
        apply wr_len in H2. congruence. }
    assert (L2 : length o2 = r + 1).
    { destruct (length o1 <? 2); [discriminate|].
      refine (foldM_inv_ok _ (fun o => length o = r + 1) _ _ _ L1 _ E3).
      intros p s1 s2 _ H1 H2. apply bind_ok in H2 as (k & _ & H2). apply bind_ok in H2 as (x & _ & H2).
      apply wr_len in H2. congruence. }
    lia.
  - intros (i & j & v & Hi & Hj & Hrj & Ef).
    apply (H i j Hi Hj v) in Ef as (p & (b & e & Eb & Ee & Hp) & Ek & Ev).
    unfold line_of, key_of in *. rewrite Om in *.
    destruct Wf as (W1 & W2 & W3 & W4 & W5 & W6).
    assert (Hmin : s_minor m = r) by (unfold s_minor; now rewrite Om). rewrite Hmin in *.
    assert (Hub : forall {A B} (x : res A) (k : A -> res B), is_ub x -> is_ub (bind x k))
      by (intros A B x k (u & ->); now exists u).
    assert (Hrng : forall l, l < r -> exists b e, rd (s_off m) l = Ok b /\ rd (s_off m) (S l) = Ok e /\
              s_range m l = Ok (seq b (e - b)) /\ b <= e).
    { intros l Hl. destruct (W4 l Hl) as (b' & e' & E1 & E2 & E3). exists b', e'.
      split; [exact E1|]. split; [exact E2|]. split; [|lia]. unfold s_range. rewrite E1; cbn [bind]. rewrite E2; cbn [bind].
      replace e' with (b' + (e' - b')) at 2 by lia. apply ptr_loop_seq. }
    unfold s_transpose. unfold s_nlines. rewrite W1. cbn [bind].
    set (Inv := fun o : buf nat => length o = r + 1).
    set (body := fun p (offs : buf nat) => do k <- rd (s_key m) p; do x <- rd offs (1 + k); wr offs (1 + k) (S x)).
    assert (Hrd : forall {A} (b : buf A) q, (exists v, rd b q = Ok v) \/ is_ub (rd b q)).
    { intros A b' q. unfold rd. destruct (nth_error b' q) as [[w|]|]; [left; now exists w|right; now exists UninitRead|right; now exists OOBRead]. }
    assert (Step : forall p o, Inv o -> (exists o', body p o = Ok o' /\ Inv o') \/ is_ub (body p o)).
    { intros q o Ho. unfold body.
      destruct (Hrd _ (s_key m) q) as [(k & Ek')|H2]; [rewrite Ek'; cbn [bind]|right; now apply Hub].
      destruct (Hrd _ o (1 + k)) as [(x & Ex)|H2]; [rewrite Ex; cbn [bind]|right; now apply Hub].
      destruct (wr o (1 + k) (S x)) as [o'| | | |] eqn:Ew.
      - left. exists o'. split; auto. apply wr_len in Ew. unfold Inv in *. congruence.
      - unfold wr, wrc in Ew. destruct (_ <? _); discriminate.
      - unfold wr, wrc in Ew. destruct (_ <? _); discriminate.
      - right. eexists; reflexivity.
      - unfold wr, wrc in Ew. destruct (_ <? _); discriminate. }
    match goal with |- exists u, bind (forM r ?bd ?o0) ?k = UB u => assert (G : is_ub (forM r bd o0)) end.
    2:{ apply Hub. exact G. }
    unfold forM. apply (foldM_ub _ Inv).
    + unfold Inv. rewrite map_length. cbn [s_new s_off]. rewrite alloc_length. now rewrite R.
    + intros l o Hl Ho. apply in_seq in Hl. destruct (Hrng l ltac:(lia)) as (b' & e' & _ & _ & Er & _).
      rewrite Er. cbn [bind]. apply (foldM_ub body Inv); auto.
    + exists i. split; [apply in_seq; lia|]. intros o Ho. destruct (Hrng i Hi) as (b' & e' & E1 & E2 & Er & _).
      rewrite Er. cbn [bind]. apply (foldM_ub body Inv); auto.
      exists p. split.
      * apply in_seq. rewrite E1 in Eb. rewrite E2 in Ee. injection Eb as ->. injection Ee as ->. lia.
      * intros o' Ho'. unfold body. rewrite Ek. cbn [bind]. exists OOBRead.
        unfold rd. replace (nth_error o' (1 + j)) with (@None (option nat)); [reflexivity|].
        symmetry. apply nth_error_None. unfold Inv in Ho'. lia.
Qed.
Print Assumptions C18_row_major_not_square_exact.

Example C18_row_major_not_square_nonvacuous : exists u, s_transpose demoSR = UB u.
Proof.
  destruct (C18_row_major_not_square_exact Z demoSR 1 3 _ demoSR_mat eq_refl ltac:(lia)) as (_ & H).
  apply H. exists 0, 1, 2%Z. split; [lia|]. split; [lia|]. split; [lia|]. reflexivity.
Qed.
