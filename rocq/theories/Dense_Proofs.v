(** Proofs about Dense_Model.v. *)
From Verif Require Import Base BaseLemmas Dense_Model Dense_Spec.
From Coq Require Import Permutation.

(** * Addresses *)
Definition addr (sh : shape) (i j : nat) : nat :=
  sh_base sh + match sh_o sh with
               | ColMajor => i + j * getLdRows sh
               | RowMajor => i * getLdColumns sh + j
               end.

(** Leading dimensions cover the shape and every element lies below [n]. *)
Definition sh_ok (sh : shape) (n : nat) : Prop :=
  sh_rows sh <= getLdRows sh /\ sh_cols sh <= getLdColumns sh /\
  forall i j, i < sh_rows sh -> j < sh_cols sh -> addr sh i j < n.

Lemma position_in dbg sh i j :
  i < sh_rows sh -> j < sh_cols sh ->
  exists p, position dbg sh i j = Ok p /\ sh_base sh + p = addr sh i j.
Proof.
  intros Hi Hj. unfold position, cassert.
  apply Nat.ltb_lt in Hi. apply Nat.ltb_lt in Hj. rewrite Hi, Hj.
  rewrite andb_false_r; simpl. eexists; split; [reflexivity|].
  unfold addr. destruct (sh_o sh); lia.
Qed.

Lemma position_assert sh i j :
  ~ (i < sh_rows sh /\ j < sh_cols sh) -> position true sh i j = AssertFail.
Proof.
  intros H. unfold position, cassert.
  destruct (Nat.ltb_spec i (sh_rows sh)); simpl; auto.
  destruct (Nat.ltb_spec j (sh_cols sh)); simpl; auto. lia.
Qed.

Lemma position_true_inv sh i j p :
  position true sh i j = Ok p -> i < sh_rows sh /\ j < sh_cols sh.
Proof.
  intros H. destruct (Nat.lt_ge_cases i (sh_rows sh)) as [Hi|Hi];
  destruct (Nat.lt_ge_cases j (sh_cols sh)) as [Hj|Hj]; auto;
  rewrite position_assert in H by lia; discriminate.
Qed.

Lemma dget_in {T} dbg (d : dense T) i j :
  i < d_rows d -> j < d_cols d -> dget dbg d i j = rd (d_buf d) (addr (d_sh d) i j).
Proof.
  intros Hi Hj. unfold dget.
  destruct (position_in dbg (d_sh d) i j Hi Hj) as (p & Ep & Ea). rewrite Ep; simpl. now rewrite Ea.
Qed.

Lemma dset_in {T} dbg (d : dense T) i j v :
  i < d_rows d -> j < d_cols d ->
  dset dbg d i j v = do b <- wr (d_buf d) (addr (d_sh d) i j) v; Ok (with_buf d b).
Proof.
  intros Hi Hj. unfold dset.
  destruct (position_in dbg (d_sh d) i j Hi Hj) as (p & Ep & Ea). rewrite Ep; simpl. now rewrite Ea.
Qed.

Lemma mul_lt_dec i j i' j' n :
  i < n -> i' < n -> i + j * n = i' + j' * n -> i = i' /\ j = j'.
Proof.
  intros Hi Hi' E. assert (j = j') by nia. subst. lia.
Qed.

Lemma addr_inj sh n i j i' j' :
  sh_ok sh n -> i < sh_rows sh -> j < sh_cols sh -> i' < sh_rows sh -> j' < sh_cols sh ->
  addr sh i j = addr sh i' j' -> i = i' /\ j = j'.
Proof.
  intros (Hr & Hc & _) Hi Hj Hi' Hj' E. unfold addr in E. destruct (sh_o sh).
  - destruct (mul_lt_dec j i j' i' (getLdColumns sh)); lia.
  - destruct (mul_lt_dec i j i' j' (getLdRows sh)); lia.
Qed.

Lemma wf_sh_ok {T} (d : dense T) : wf_mem d -> sh_ok (d_sh d) (length (d_buf d)).
Proof.
  intros (Hs & Hb & Hl). unfold sh_ok, getLdRows, getLdColumns, addr, getLdRows, getLdColumns.
  rewrite Hs, Hb, Hl. unfold d_rows, d_cols. repeat split; auto.
  intros i j Hi Hj. destruct (sh_o (d_sh d)); nia.
Qed.

Lemma wf_window_ok {T} (p : dense T) nr nc br bc :
  inside p nr nc br bc -> sh_ok (d_sh (d_window p nr nc br bc)) (length (d_buf p)).
Proof.
  intros ((Hs & Hb & Hl) & Ho & Hr & Hc).
  unfold sh_ok, addr, getLdRows, getLdColumns, d_window; simpl. rewrite Hb, Hl.
  repeat split; try lia. intros i j Hi Hj. nia.
Qed.

Lemma legal_ok {T} (d : dense T) : legal d -> sh_ok (d_sh d) (length (d_buf d)).
Proof.
  destruct 1 as [d H|p nr nc br bc H].
  - now apply wf_sh_ok.
  - exact (wf_window_ok p nr nc br bc H).
Qed.

(** Address of a window element is the parent's address of the shifted one. *)
Lemma window_addr {T} (p : dense T) nr nc br bc i j :
  inside p nr nc br bc ->
  addr (d_sh (d_window p nr nc br bc)) i j = addr (d_sh p) (br + i) (bc + j).
Proof.
  intros ((Hs & Hb & Hl) & Ho & Hr & Hc). unfold addr, getLdRows, d_window, d_orient, d_rows in *; simpl.
  rewrite Ho, Hs, Hb. lia.
Qed.

(** * Cursors *)
Lemma ptr_loop_ok st n : forall cur f,
  (0 < st \/ n = 0) -> n < f ->
  ptr_loop f cur (cur + n * st) st = Ok (map (fun k => cur + k * st) (seq 0 n)).
Proof.
  induction n as [|n IH]; intros cur f Hst Hf; destruct f as [|f]; try lia; cbn [ptr_loop].
  - simpl. rewrite Nat.add_0_r, Nat.eqb_refl. reflexivity.
  - destruct (Nat.eqb_spec cur (cur + S n * st)) as [E|_]; [nia|].
    replace (cur + S n * st) with (cur + st + n * st) by lia.
    rewrite IH by lia. cbn [bind seq map]. f_equal. f_equal; [lia|].
    rewrite <- seq_shift, map_map. apply map_ext; intros k; lia.
Qed.

(** The row or column a direction denotes. *)
Definition is_row_dir (o : orient) (d : dir) : bool :=
  match o, d with
  | _, DRow => true | _, DCol => false
  | RowMajor, DMinor => true | RowMajor, DMajor => false
  | ColMajor, DMajor => true | ColMajor, DMinor => false
  end.

Lemma cur_row_addrs sh d1 d2 i :
  is_row_dir (sh_o sh) d1 = true -> is_row_dir (sh_o sh) d2 = false ->
  i < sh_rows sh -> sh_rows sh <= getLdRows sh ->
  cur_addrs sh d1 d2 i = Ok (map (addr sh i) (seq 0 (sh_cols sh))).
Proof.
  intros H1 H2 Hi Hld. unfold cur_addrs.
  destruct (sh_o sh) eqn:Eo.
  - (* row major: contiguous row *)
    assert (Eb : cur_begin sh d1 i = sh_base sh + i * getLdColumns sh)
      by (unfold cur_begin; rewrite Eo; destruct d1; simpl in H1; try discriminate; reflexivity).
    assert (Ee : cur_end sh d1 i = cur_begin sh d1 i + sh_cols sh * 1)
      by (rewrite Eb; unfold cur_end; rewrite Eo; destruct d1; simpl in H1; try discriminate; lia).
    assert (Es : cur_stride sh d2 = 1)
      by (unfold cur_stride; rewrite Eo; destruct d2; simpl in H2; try discriminate; reflexivity).
    rewrite Es, Ee. rewrite ptr_loop_ok by lia. f_equal. apply map_ext; intros k.
    unfold addr; rewrite Eo, Eb; lia.
  - assert (Eb : cur_begin sh d1 i = sh_base sh + i)
      by (unfold cur_begin; rewrite Eo; destruct d1; simpl in H1; try discriminate; reflexivity).
    assert (Ee : cur_end sh d1 i = cur_begin sh d1 i + sh_cols sh * getLdRows sh)
      by (rewrite Eb; unfold cur_end; rewrite Eo; destruct d1; simpl in H1; try discriminate; lia).
    assert (Es : cur_stride sh d2 = getLdRows sh)
      by (unfold cur_stride; rewrite Eo; destruct d2; simpl in H2; try discriminate; reflexivity).
    rewrite Es, Ee. rewrite ptr_loop_ok by nia. f_equal. apply map_ext; intros k.
    unfold addr; rewrite Eo, Eb; lia.
Qed.

Lemma cur_col_addrs sh d1 d2 j :
  is_row_dir (sh_o sh) d1 = false -> is_row_dir (sh_o sh) d2 = true ->
  j < sh_cols sh -> sh_cols sh <= getLdColumns sh ->
  cur_addrs sh d1 d2 j = Ok (map (fun i => addr sh i j) (seq 0 (sh_rows sh))).
Proof.
  intros H1 H2 Hj Hld. unfold cur_addrs.
  destruct (sh_o sh) eqn:Eo.
  - assert (Eb : cur_begin sh d1 j = sh_base sh + j)
      by (unfold cur_begin; rewrite Eo; destruct d1; simpl in H1; try discriminate; reflexivity).
    assert (Ee : cur_end sh d1 j = cur_begin sh d1 j + sh_rows sh * getLdColumns sh)
      by (rewrite Eb; unfold cur_end; rewrite Eo; destruct d1; simpl in H1; try discriminate; lia).
    assert (Es : cur_stride sh d2 = getLdColumns sh)
      by (unfold cur_stride; rewrite Eo; destruct d2; simpl in H2; try discriminate; reflexivity).
    rewrite Es, Ee. rewrite ptr_loop_ok by nia. f_equal. apply map_ext; intros k.
    unfold addr; rewrite Eo, Eb; lia.
  - assert (Eb : cur_begin sh d1 j = sh_base sh + j * getLdRows sh)
      by (unfold cur_begin; rewrite Eo; destruct d1; simpl in H1; try discriminate; reflexivity).
    assert (Ee : cur_end sh d1 j = cur_begin sh d1 j + sh_rows sh * 1)
      by (rewrite Eb; unfold cur_end; rewrite Eo; destruct d1; simpl in H1; try discriminate; lia).
    assert (Es : cur_stride sh d2 = 1)
      by (unfold cur_stride; rewrite Eo; destruct d2; simpl in H2; try discriminate; reflexivity).
    rewrite Es, Ee. rewrite ptr_loop_ok by lia. f_equal. apply map_ext; intros k.
    unfold addr; rewrite Eo, Eb; lia.
Qed.

Lemma cur_rc sh i : i < sh_rows sh -> sh_rows sh <= getLdRows sh ->
  cur_addrs sh DRow DCol i = Ok (map (addr sh i) (seq 0 (sh_cols sh))).
Proof. intros; apply cur_row_addrs; auto; now destruct (sh_o sh). Qed.

Lemma cur_cr sh j : j < sh_cols sh -> sh_cols sh <= getLdColumns sh ->
  cur_addrs sh DCol DRow j = Ok (map (fun i => addr sh i j) (seq 0 (sh_rows sh))).
Proof. intros; apply cur_col_addrs; auto; now destruct (sh_o sh). Qed.

(** Free-running (lockstep) cursors. *)
Lemma lock_rc sh i k : cur_begin sh DRow i + k * cur_stride sh DCol = addr sh i k.
Proof. unfold cur_begin, cur_stride, addr; destruct (sh_o sh); lia. Qed.
Lemma lock_cr sh j k : cur_begin sh DCol j + k * cur_stride sh DRow = addr sh k j.
Proof. unfold cur_begin, cur_stride, addr; destruct (sh_o sh); lia. Qed.

Lemma enum_map_seq {A} (f : nat -> A) n :
  enum (map f (seq 0 n)) = map (fun k => (k, f k)) (seq 0 n).
Proof.
  unfold enum. rewrite map_length, seq_length.
  generalize 0 as s. induction n as [|n IH]; intros s; simpl; auto. f_equal; auto.
Qed.

Lemma In_enum {A} (l : list A) k a : In (k, a) (enum l) -> nth_error l k = Some a.
Proof.
  unfold enum. assert (G : forall s, In (k, a) (combine (seq s (length l)) l) ->
    s <= k /\ nth_error l (k - s) = Some a).
  { induction l as [|x t IH]; intros s H; simpl in H; [contradiction|].
    destruct H as [H|H].
    - inversion H; subst. rewrite Nat.sub_diag; auto.
    - apply IH in H as [Hle H]. split; [lia|].
      replace (k - s) with (S (k - S s)) by lia. exact H. }
  intros H; apply G in H as [_ H]. now rewrite Nat.sub_0_r in H.
Qed.

(** * Lists of writes *)
Definition writes {T} (ws : list (nat * option T)) (b : buf T) : res (buf T) :=
  foldM (fun w b => wrc b (fst w) (snd w)) ws b.

Lemma writes_ok {T} (ws : list (nat * option T)) : forall (b : buf T),
  (forall a c, In (a, c) ws -> a < length b) ->
  exists b', writes ws b = Ok b' /\ length b' = length b /\
    (NoDup (map fst ws) -> forall a c, In (a, c) ws -> nth_error b' a = Some c) /\
    (forall a, ~ In a (map fst ws) -> nth_error b' a = nth_error b a).
Proof.
  induction ws as [|[a0 c0] ws IH]; intros b Hb.
  - exists b; simpl; repeat split; auto. contradiction.
  - unfold writes; cbn [foldM fst snd]. rewrite wrc_ok by (eapply Hb; left; reflexivity). cbn [bind].
    destruct (IH (upd b a0 c0)) as (b' & E & L & Hin & Hout).
    { intros a c H. rewrite upd_length. eapply Hb; right; exact H. }
    exists b'. rewrite upd_length in L. split; [exact E|]. split; [exact L|]. split.
    + intros Hnd a c [H|H]; cbn [map] in Hnd; inversion Hnd as [|x y Hni Hnd']; subst.
      * inversion H; subst. cbn [fst] in Hni. rewrite Hout by exact Hni.
        apply nth_error_upd_eq. eapply Hb; left; reflexivity.
      * apply Hin; auto.
    + intros a Hni. cbn [map fst] in Hni. rewrite Hout by (intros C; apply Hni; now right).
      apply nth_error_upd_ne. intros C; apply Hni; now left.
Qed.

Lemma foldM_flat_map {X Y S} (g : Y -> list X) (f : X -> S -> res S) l s :
  foldM f (flat_map g l) s = foldM (fun y => foldM f (g y)) l s.
Proof.
  revert s; induction l as [|y t IH]; intros s; simpl; auto.
  rewrite foldM_app. apply bind_ext; intros a _. apply IH.
Qed.

(** A loop writing through [with_buf] is the loop on the memory. *)
Lemma foldM_with_buf {X T} (g : X -> buf T -> res (buf T)) (l : list X) : forall (d : dense T),
  foldM (fun x d => do b <- g x (d_buf d); Ok (with_buf d b)) l d =
  (do b <- foldM g l (d_buf d); Ok (with_buf d b)).
Proof.
  induction l as [|x t IH]; intros d; simpl.
  - destruct d; reflexivity.
  - destruct (g x (d_buf d)) as [b| | | |]; simpl; auto. rewrite IH. reflexivity.
Qed.

(** All index pairs, row by row. *)
Definition pairs (r c : nat) : list (nat * nat) :=
  flat_map (fun i => map (fun j => (i, j)) (seq 0 c)) (seq 0 r).

Lemma in_pairs r c i j : In (i, j) (pairs r c) <-> i < r /\ j < c.
Proof.
  unfold pairs. rewrite in_flat_map. split.
  - intros (x & Hx & H). apply in_map_iff in H as (y & E & Hy). inversion E; subst.
    apply in_seq in Hx. apply in_seq in Hy. lia.
  - intros [Hi Hj]. exists i. split; [apply in_seq; lia|]. apply in_map_iff.
    exists j; split; auto. apply in_seq; lia.
Qed.

Lemma NoDup_map_inj {A B} (f : A -> B) l :
  NoDup l -> (forall x y, In x l -> In y l -> f x = f y -> x = y) -> NoDup (map f l).
Proof.
  induction 1 as [|x l Hni Hnd IH]; intros Hinj; simpl; constructor.
  - intros H. apply in_map_iff in H as (y & E & Hy).
    apply Hni. rewrite (Hinj x y); auto; [now left|now right].
  - apply IH. intros; apply Hinj; auto; now right.
Qed.

Lemma NoDup_pairs r c : NoDup (pairs r c).
Proof.
  unfold pairs. generalize 0 at 2 as s. induction r as [|r IH]; intros s; simpl; [constructor|].
  assert (D : forall l1 l2 : list (nat * nat), NoDup l1 -> NoDup l2 ->
     (forall x, In x l1 -> ~ In x l2) -> NoDup (l1 ++ l2)).
  { clear. induction l1 as [|x l1 IH]; intros l2 H1 H2 Hd; simpl; auto.
    inversion H1; subst. constructor.
    - rewrite in_app_iff. intros [H|H]; [contradiction|]. apply (Hd x); [now left|auto].
    - apply IH; auto. intros y Hy; apply Hd; now right. }
  apply D.
  - apply NoDup_map_inj; [apply seq_NoDup|]. intros x y _ _ E; now inversion E.
  - apply IH.
  - intros [x y] H1 H2. apply in_map_iff in H1 as (z & E & _). inversion E; subst.
    apply in_flat_map in H2 as (w & Hw & H2). apply in_map_iff in H2 as (v & E2 & _).
    inversion E2; subst. apply in_seq in Hw. lia.
Qed.

(** Writing a value to every element (row by row) of a shape. *)
Lemma write_all {T} (sh : shape) (b : buf T) (g : nat -> nat -> option T) :
  sh_ok sh (length b) ->
  exists b', writes (map (fun p => (addr sh (fst p) (snd p), g (fst p) (snd p)))
                         (pairs (sh_rows sh) (sh_cols sh))) b = Ok b' /\
    length b' = length b /\
    (forall i j, i < sh_rows sh -> j < sh_cols sh -> nth_error b' (addr sh i j) = Some (g i j)) /\
    (forall a, (forall i j, i < sh_rows sh -> j < sh_cols sh -> a <> addr sh i j) ->
       nth_error b' a = nth_error b a).
Proof.
  intros Hok.
  destruct (writes_ok (map (fun p => (addr sh (fst p) (snd p), g (fst p) (snd p)))
                         (pairs (sh_rows sh) (sh_cols sh))) b) as (b' & E & L & Hin & Hout).
  { intros a c H. apply in_map_iff in H as ([i j] & Ep & Hp). cbn [fst snd] in Ep.
    inversion Ep; subst. apply in_pairs in Hp. now apply Hok. }
  exists b'; split; [exact E|]; split; [exact L|]; split.
  - intros i j Hi Hj. apply Hin.
    + rewrite map_map. cbn [fst]. apply NoDup_map_inj; [apply NoDup_pairs|].
      intros [i1 j1] [i2 j2] H1 H2 Ea. apply in_pairs in H1. apply in_pairs in H2.
      cbn [fst snd] in Ea. destruct (addr_inj sh _ i1 j1 i2 j2 Hok) as [-> ->]; tauto.
    + apply in_map_iff. exists (i, j); split; auto. now apply in_pairs.
  - intros a Ha. apply Hout. rewrite map_map. cbn [fst]. intros H.
    apply in_map_iff in H as ([i j] & Ep & Hp). cbn [fst snd] in Ep.
    apply in_pairs in Hp. apply (Ha i j); try tauto. auto.
Qed.

(** Nested loops row by row are the flat list of writes. *)
Lemma nested_writes {T} (sh : shape) (g : nat -> nat -> option T) r c (b : buf T) :
  foldM (fun i => foldM (fun j b => wrc b (addr sh i j) (g i j)) (seq 0 c)) (seq 0 r) b =
  writes (map (fun p => (addr sh (fst p) (snd p), g (fst p) (snd p))) (pairs r c)) b.
Proof.
  unfold writes, pairs. rewrite foldM_map, foldM_flat_map.
  apply foldM_ext; intros i s _. rewrite foldM_map. cbn [fst snd].
  apply foldM_ext; intros j s' _. reflexivity.
Qed.

Lemma view_from_cells {T} (d : dense T) r c f :
  d_rows d = r -> d_cols d = c ->
  (forall i j, i < r -> j < c -> nth_error (d_buf d) (addr (d_sh d) i j) = Some (Some (f i j))) ->
  view d r c f.
Proof.
  intros Hr Hc H. split; [exact Hr|]; split; [exact Hc|]. intros i j Hi Hj.
  rewrite dget_in by lia. apply rd_ok. auto.
Qed.

Lemma view_cell {T} (d : dense T) r c f i j :
  view d r c f -> i < r -> j < c -> nth_error (d_buf d) (addr (d_sh d) i j) = Some (Some (f i j)).
Proof.
  intros (Hr & Hc & H) Hi Hj. specialize (H i j Hi Hj).
  rewrite dget_in in H by lia. now apply rd_ok in H.
Qed.

Lemma view_dget {T} (d : dense T) r c f dbg i j :
  view d r c f -> i < r -> j < c -> dget dbg d i j = Ok (f i j).
Proof.
  intros Hv Hi Hj. pose proof (view_cell d r c f i j Hv Hi Hj) as E.
  destruct Hv as (Hr & Hc & _). rewrite dget_in by lia. now apply rd_ok.
Qed.

Lemma d_new_wf {T} o r c : wf_mem (@d_new T o r c).
Proof. unfold wf_mem, d_new, own_shape, d_rows, d_cols; simpl. now rewrite alloc_length. Qed.

Lemma with_buf_wf {T} (d : dense T) b : wf_mem d -> length b = length (d_buf d) -> wf_mem (with_buf d b).
Proof. unfold wf_mem, d_rows, d_cols; simpl. intros (H1 & H2 & H3) E. rewrite E; auto. Qed.

(** Every address below rows*cols of an owning matrix belongs to one element. *)
Lemma own_addr_surj {T} (d : dense T) a :
  wf_mem d -> a < length (d_buf d) ->
  exists i j, i < d_rows d /\ j < d_cols d /\ a = addr (d_sh d) i j.
Proof.
  intros (Hs & Hb & Hl) Ha. unfold addr, getLdRows, getLdColumns, d_rows, d_cols in *.
  rewrite Hs, Hb. rewrite Hl in Ha. destruct (sh_o (d_sh d)).
  - assert (sh_cols (d_sh d) <> 0) by (intros E; rewrite E in Ha; lia).
    exists (a / sh_cols (d_sh d)), (a mod sh_cols (d_sh d)).
    split; [apply Nat.div_lt_upper_bound; lia|]. split; [now apply Nat.mod_upper_bound|].
    pose proof (Nat.div_mod a (sh_cols (d_sh d)) H). lia.
  - assert (sh_rows (d_sh d) <> 0) by (intros E; rewrite E in Ha; lia).
    exists (a mod sh_rows (d_sh d)), (a / sh_rows (d_sh d)).
    split; [now apply Nat.mod_upper_bound|]. split; [apply Nat.div_lt_upper_bound; nia|].
    pose proof (Nat.div_mod a (sh_rows (d_sh d)) H). lia.
Qed.

(** Two all-set matrices with the same view, shape and orientation are the same memory. *)
Lemma view_buf_ext {T} (d1 d2 : dense T) r c f :
  is_mat d1 r c f -> is_mat d2 r c f -> d_orient d1 = d_orient d2 -> d_buf d1 = d_buf d2.
Proof.
  intros [W1 V1] [W2 V2] Ho. apply nth_error_ext; intros a.
  pose proof V1 as (R1 & C1 & _). pose proof V2 as (R2 & C2 & _).
  destruct (Nat.lt_ge_cases a (length (d_buf d1))) as [Ha|Ha].
  - destruct (own_addr_surj d1 a W1 Ha) as (i & j & Hi & Hj & ->).
    rewrite (view_cell d1 r c f i j V1) by lia.
    replace (addr (d_sh d1) i j) with (addr (d_sh d2) i j).
    + symmetry; apply (view_cell d2 r c f); auto; lia.
    + unfold addr, d_orient, getLdRows, getLdColumns, d_rows, d_cols in *.
      destruct W1 as (S1 & B1 & _), W2 as (S2 & B2 & _). rewrite S1, S2, B1, B2, Ho.
      destruct (sh_o (d_sh d2)); lia.
  - destruct W1 as (_ & _ & L1), W2 as (_ & _ & L2).
    transitivity (@None (option T)); [|symmetry]; apply nth_error_None; nia.
Qed.

(** * A generic rule for loops that set one element per iteration *)
Section Fill.
  Context {U : Type} (sh0 : shape) (n : nat) (v : nat -> nat -> option U).
  Context (F : nat -> nat -> dense U -> res (dense U)).
  Hypothesis Hok : sh_ok sh0 n.
  Hypothesis HF : forall i j d, i < sh_rows sh0 -> j < sh_cols sh0 -> d_sh d = sh0 ->
    length (d_buf d) = n ->
    F i j d = do b <- wrc (d_buf d) (addr sh0 i j) (v i j); Ok (with_buf d b).

  Lemma fill_pairs ps : forall d, NoDup ps ->
    (forall i j, In (i, j) ps -> i < sh_rows sh0 /\ j < sh_cols sh0) ->
    d_sh d = sh0 -> length (d_buf d) = n ->
    exists b', foldM (fun p => F (fst p) (snd p)) ps d = Ok (with_buf d b') /\ length b' = n /\
      (forall i j, In (i, j) ps -> nth_error b' (addr sh0 i j) = Some (v i j)) /\
      (forall a, (forall i j, In (i, j) ps -> a <> addr sh0 i j) -> nth_error b' a = nth_error (d_buf d) a).
  Proof.
    induction ps as [|[i j] ps IH]; intros d Hnd Hps Hsh Hlen; cbn [foldM].
    - exists (d_buf d); repeat split; auto; [destruct d; reflexivity|contradiction].
    - inversion Hnd as [|x y Hni Hnd']; subst x y.
      destruct (Hps i j (or_introl eq_refl)) as [Hi Hj]. cbn [fst snd].
      assert (Ha : addr sh0 i j < length (d_buf d)) by (rewrite Hlen; now apply Hok).
      rewrite HF, wrc_ok by auto. cbn [bind].
      destruct (IH (with_buf d (upd (d_buf d) (addr sh0 i j) (v i j)))) as (b' & E & L & Hin & Hout); auto.
      { intros; apply Hps; now right. }
      { simpl; now rewrite upd_length. }
      exists b'; split; [exact E|]; split; [exact L|]; split.
      + intros i2 j2 [H|H]; [|now apply Hin]. inversion H; subst i2 j2.
        rewrite Hout. { simpl. now apply nth_error_upd_eq. }
        intros i2 j2 H2 Ea. destruct (Hps i2 j2 (or_intror H2)) as [Hi2 Hj2].
        destruct (addr_inj sh0 n i j i2 j2) as [-> ->]; auto.
      + intros a Ha2. rewrite Hout. { simpl. apply nth_error_upd_ne. intros C. symmetry in C.
          revert C. apply Ha2; now left. }
        intros i2 j2 H2; apply Ha2; now right.
  Qed.

  Lemma fill_rc d : d_sh d = sh0 -> length (d_buf d) = n ->
    exists b', forM (sh_rows sh0) (fun i => forM (sh_cols sh0) (F i)) d = Ok (with_buf d b') /\
      length b' = n /\
      (forall i j, i < sh_rows sh0 -> j < sh_cols sh0 -> nth_error b' (addr sh0 i j) = Some (v i j)) /\
      (forall a, (forall i j, i < sh_rows sh0 -> j < sh_cols sh0 -> a <> addr sh0 i j) ->
         nth_error b' a = nth_error (d_buf d) a).
  Proof.
    intros Hsh Hlen.
    destruct (fill_pairs (pairs (sh_rows sh0) (sh_cols sh0)) d (NoDup_pairs _ _)) as (b' & E & L & Hin & Hout); auto.
    { intros i j H; now apply in_pairs in H. }
    exists b'; repeat split; auto.
    - rewrite <- E. unfold pairs, forM. rewrite foldM_flat_map. apply foldM_ext; intros i s _.
      now rewrite foldM_map.
    - intros i j Hi Hj; apply Hin. now apply in_pairs.
    - intros a Ha; apply Hout. intros i j H; apply in_pairs in H; now apply Ha.
  Qed.

  Lemma fill_cr d : d_sh d = sh0 -> length (d_buf d) = n ->
    exists b', forM (sh_cols sh0) (fun j => forM (sh_rows sh0) (fun i => F i j)) d = Ok (with_buf d b') /\
      length b' = n /\
      (forall i j, i < sh_rows sh0 -> j < sh_cols sh0 -> nth_error b' (addr sh0 i j) = Some (v i j)) /\
      (forall a, (forall i j, i < sh_rows sh0 -> j < sh_cols sh0 -> a <> addr sh0 i j) ->
         nth_error b' a = nth_error (d_buf d) a).
  Proof.
    intros Hsh Hlen.
    destruct (fill_pairs (map (fun p => (snd p, fst p)) (pairs (sh_cols sh0) (sh_rows sh0))) d) as (b' & E & L & Hin & Hout); auto.
    { apply NoDup_map_inj; [apply NoDup_pairs|]. intros [x y] [x' y'] _ _ E; now inversion E. }
    { intros i j H. apply in_map_iff in H as ([x y] & E & H). inversion E; subst. apply in_pairs in H. tauto. }
    exists b'; repeat split; auto.
    - rewrite <- E. unfold pairs, forM. rewrite foldM_map, foldM_flat_map. apply foldM_ext; intros j s _.
      now rewrite foldM_map.
    - intros i j Hi Hj; apply Hin. apply in_map_iff. exists (j, i); split; auto. now apply in_pairs.
    - intros a Ha; apply Hout. intros i j H. apply in_map_iff in H as ([x y] & E2 & H).
      inversion E2; subst. apply in_pairs in H. apply Ha; tauto.
  Qed.
End Fill.

(** The code's nested cursor loops (outer row, inner column) as index loops. *)
Lemma cursor_rc_loop {S} (sh : shape) (body : nat -> nat -> nat -> S -> res S) (s : S) :
  sh_rows sh <= getLdRows sh ->
  forM (sh_rows sh) (fun i s => do ads <- cur_addrs sh DRow DCol i;
      foldM (fun '(k, a) s => body i k a s) (enum ads) s) s =
  forM (sh_rows sh) (fun i => forM (sh_cols sh) (fun k => body i k (addr sh i k))) s.
Proof.
  intros H. unfold forM. apply foldM_ext; intros i s' Hi. apply in_seq in Hi.
  rewrite cur_rc by (auto; lia). cbn [bind]. rewrite enum_map_seq, foldM_map. reflexivity.
Qed.

Lemma cursor_rc_loop' {S} (sh : shape) (body : nat -> nat -> S -> res S) (s : S) :
  sh_rows sh <= getLdRows sh ->
  forM (sh_rows sh) (fun i s => do ads <- cur_addrs sh DRow DCol i; foldM (body i) ads s) s =
  forM (sh_rows sh) (fun i => forM (sh_cols sh) (fun k => body i (addr sh i k))) s.
Proof.
  intros H. unfold forM. apply foldM_ext; intros i s' Hi. apply in_seq in Hi.
  rewrite cur_rc by (auto; lia). cbn [bind]. rewrite foldM_map. reflexivity.
Qed.

(** [forM] with the state's shape and memory size as standing facts. *)
Lemma forM_ext_lt {S} n (f g : nat -> S -> res S) s :
  (forall i s, i < n -> f i s = g i s) -> forM n f s = forM n g s.
Proof. intros H. apply foldM_ext. intros i s' Hi; apply in_seq in Hi; apply H; lia. Qed.

(** * Copy *)
Lemma d_copy_spec {T U} (cv : T -> U) (src : dense T) (dst : dense U) r c f :
  view src r c f -> sh_rows (d_sh src) <= getLdRows (d_sh src) ->
  d_rows dst = r -> d_cols dst = c -> sh_ok (d_sh dst) (length (d_buf dst)) ->
  exists b', d_copy cv src dst = Ok (with_buf dst b') /\ length b' = length (d_buf dst) /\
    (forall i j, i < r -> j < c -> nth_error b' (addr (d_sh dst) i j) = Some (Some (cv (f i j)))) /\
    (forall a, (forall i j, i < r -> j < c -> a <> addr (d_sh dst) i j) ->
       nth_error b' a = nth_error (d_buf dst) a).
Proof.
  intros Hv Hs Hr Hc Hd. pose proof Hv as (Sr & Sc & _). unfold d_rows, d_cols in *. subst r c.
  destruct (fill_rc (d_sh dst) (length (d_buf dst)) (fun i j => Some (cv (f i j)))
    (fun i k d => do c <- rdc (d_buf src) (addr (d_sh src) i k);
      do b <- wrc (d_buf d) (cur_begin (d_sh d) DRow i + k * cur_stride (d_sh d) DCol) (option_map cv c);
      Ok (with_buf d b)) Hd) with (d := dst) as (b' & E & L & Hin & Hout); auto.
  { intros i j d Hi Hj Esh _. unfold rdc. rewrite (view_cell src _ _ f i j Hv) by lia.
    cbn [bind option_map]. now rewrite lock_rc, Esh. }
  exists b'; repeat split; auto.
  unfold d_copy, d_rows. rewrite (cursor_rc_loop (d_sh src) (fun i k a d => do c <- rdc (d_buf src) a;
      do b <- wrc (d_buf d) (cur_begin (d_sh d) DRow i + k * cur_stride (d_sh d) DCol) (option_map cv c);
      Ok (with_buf d b))) by exact Hs.
  rewrite <- E, Sr, Sc. reflexivity.
Qed.

(** * Transposition *)
Lemma transpose_spec {T} (m : dense T) r c f :
  view m r c f -> sh_rows (d_sh m) <= getLdRows (d_sh m) ->
  exists t, transpose_dense m = Ok t /\ is_mat t c r (fun i j => f j i) /\
            d_orient t = d_orient m /\ full_ok t /\ d_own t = true.
Proof.
  intros Hv Hs. pose proof Hv as (Sr & Sc & _).
  set (t0 := @d_new T (d_orient m) (d_cols m) (d_rows m)).
  assert (W0 : wf_mem t0) by apply d_new_wf.
  destruct (fill_cr (d_sh t0) (length (d_buf t0)) (fun i j => Some (f j i))
    (fun k i t => do c <- rdc (d_buf m) (addr (d_sh m) i k);
      do b <- wrc (d_buf t) (cur_begin (d_sh t) DCol i + k * cur_stride (d_sh t) DRow) c;
      Ok (with_buf t b)) (wf_sh_ok t0 W0)) with (d := t0) as (b' & E & L & Hin & Hout); auto.
  { intros i j d Hi Hj Esh _. cbn in Hi, Hj. unfold rdc. rewrite (view_cell m _ _ f j i Hv) by lia.
    cbn [bind]. now rewrite lock_cr, Esh. }
  exists (with_buf t0 b'). split; [|split; [split|]].
  - unfold transpose_dense, d_rows. rewrite (cursor_rc_loop (d_sh m) (fun i k a t => do c <- rdc (d_buf m) a;
      do b <- wrc (d_buf t) (cur_begin (d_sh t) DCol i + k * cur_stride (d_sh t) DRow) c;
      Ok (with_buf t b))) by exact Hs.
    fold (d_rows m). rewrite <- E. reflexivity.
  - apply with_buf_wf; auto.
  - apply view_from_cells.
    + exact Sc.
    + exact Sr.
    + intros i j Hi Hj. apply Hin; [cbn; lia|]. cbn; lia.
  - repeat split; auto.
Qed.
