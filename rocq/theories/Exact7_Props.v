(** C24, C25, C27, C29: products written into a result object over memory of the
    caller, and moved-from matrices (C07). *)
From Verif Require Import Base BaseLemmas Dense_Model Dense_Spec Dense_Proofs Dense2_Proofs Dense3_Proofs Dense_Props
  Sparse_Model Sparse_Spec Sparse_Proofs Mult_Model Mult_Spec Mult_Proofs Mult2_Proofs Mult3_Proofs Mult_Props Dyn_Model Exact_Props.

(** The same matrix object with memory that belongs to the caller. *)
Definition foreign {T} (d : dense T) : dense T := mkDense (d_sh d) (d_full d) (d_buf d) false.

Lemma bind_rmap {A B C} (g : A -> B) (x : res A) (k : B -> res C) : bind (rmap g x) k = bind x (fun a => k (g a)).
Proof. destruct x; reflexivity. Qed.
Lemma rmap_bind {A B C} (g : B -> C) (x : res A) (k : A -> res B) : rmap g (bind x k) = bind x (fun a => rmap g (k a)).
Proof. destruct x; reflexivity. Qed.
Lemma foldM_rmap {A S} (g : S -> S) (f : A -> S -> res S) (l : list A) :
  (forall x s, f x (g s) = rmap g (f x s)) -> forall s, foldM f l (g s) = rmap g (foldM f l s).
Proof.
  intros H. induction l as [|x l IH]; intros s; cbn [foldM]; [reflexivity|].
  rewrite H, bind_rmap, rmap_bind. apply bind_ext. intros s' _. apply IH.
Qed.

Lemma fma_at_foreign {T1 T2 T3} (fma : T3 -> T1 -> T2 -> T3) (c : dense T3) a x y :
  fma_at fma (foreign c) a x y = rmap foreign (fma_at fma c a x y).
Proof. unfold fma_at. cbn [foreign d_buf]. rewrite rmap_bind. apply bind_ext; intros z _. rewrite rmap_bind. reflexivity. Qed.

Lemma d_resize_foreign {T} (c : dense T) r k : fresh_ok c ->
  d_resize (foreign c) r k =
    (foreign (if length (d_buf c) =? r * k then fst (d_resize c r k)
              else mkDense (mkShape (d_orient c) r k false (sh_ldr (d_sh c)) (sh_ldc (d_sh c)) 0) (r * k) (d_buf c) false),
     negb (length (d_buf c) =? r * k)).
Proof.
  intros (S & B & W). unfold d_resize, foreign, st_resize, d_orient. cbn [d_buf d_sh d_own d_full]. rewrite S, B, W.
  destruct (length (d_buf c) =? r * k) eqn:E; cbn; rewrite ?E; reflexivity.
Qed.

Lemma resize_zero_foreign {T} (zero : T) (c : dense T) r k : fresh_ok c ->
  resize_zero zero (foreign c) r k =
    if length (d_buf c) =? r * k then rmap foreign (resize_zero zero c r k) else Throw.
Proof.
  intros Hf. unfold resize_zero. rewrite d_resize_foreign by exact Hf.
  destruct (length (d_buf c) =? r * k) eqn:E; cbn [negb]; [|reflexivity].
  destruct Hf as (S & B & W). unfold d_resize. rewrite W, andb_false_r. cbn [fst].
  unfold all_filler. rewrite rmap_bind. apply bind_ext. intros ads _. apply foldM_rmap.
  intros x s. rewrite rmap_bind. reflexivity.
Qed.

(** C24, C27.  A product into foreign memory (wrapped with the right or the wrong
    dimensions) gives exactly what it gives in memory of its own if the number of
    elements fits, and throws before any operand is read otherwise. *)
Theorem C24_foreign_result :
  forall (T1 T2 T3 : Type) (fma : T3 -> T1 -> T2 -> T3) (zero : T3) dbg (a : dense T1) (b : dense T2) (c : dense T3),
    fresh_ok c -> d_cols a = d_rows b ->
    mul_dd fma zero dbg a b (foreign c) =
      (if length (d_buf c) =? d_rows a * d_cols b then rmap foreign (mul_dd fma zero dbg a b c) else Throw).
Proof.
  intros T1 T2 T3 fma zero dbg a b c Hf Hd. unfold mul_dd, cassert. rewrite Hd, Nat.eqb_refl, andb_false_r. cbn [bind].
  rewrite resize_zero_foreign by exact Hf. destruct (_ =? _); [|reflexivity].
  rewrite bind_rmap, rmap_bind. apply bind_ext. intros c0 _.
  unfold forM at 1 4. apply (foldM_rmap foreign). intros j s. unfold forM at 1 3. apply (foldM_rmap foreign). intros k s1.
  unfold forM. apply (foldM_rmap foreign). intros i s2.
  rewrite rmap_bind. apply bind_ext. intros x _. rewrite rmap_bind. apply bind_ext. intros y _. apply fma_at_foreign.
Qed.
Print Assumptions C24_foreign_result.

Theorem C27_foreign_result :
  forall (T1 T2 T3 : Type) (fma : T3 -> T1 -> T2 -> T3) (zero : T3) dbg,
    (forall (a : sparse T1) (b : dense T2) (c : dense T3), fresh_ok c -> s_cols a = d_rows b ->
       mul_sd fma zero dbg a b (foreign c) =
         (if length (d_buf c) =? s_rows a * d_cols b then rmap foreign (mul_sd fma zero dbg a b c) else Throw)) /\
    (forall (a : dense T1) (b : sparse T2) (c : dense T3), fresh_ok c -> d_cols a = s_rows b ->
       mul_ds fma zero dbg a b (foreign c) =
         (if length (d_buf c) =? d_rows a * s_cols b then rmap foreign (mul_ds fma zero dbg a b c) else Throw)).
Proof.
  intros T1 T2 T3 fma zero dbg. split.
  - intros a b c Hf Hd. unfold mul_sd, cassert. rewrite Hd, Nat.eqb_refl, andb_false_r. cbn [bind].
    rewrite resize_zero_foreign by exact Hf. destruct (_ =? _); [|reflexivity].
    rewrite bind_rmap, rmap_bind. apply bind_ext. intros c0 _.
    unfold forM at 1 3. apply (foldM_rmap foreign). intros l s. rewrite rmap_bind. apply bind_ext. intros ps _.
    apply (foldM_rmap foreign). intros p s1.
    rewrite rmap_bind. apply bind_ext. intros x _. rewrite rmap_bind. apply bind_ext. intros y _.
    unfold forM. apply (foldM_rmap foreign). intros i s2. rewrite rmap_bind. apply bind_ext. intros z _. apply fma_at_foreign.
  - intros a b c Hf Hd. unfold mul_ds, cassert. rewrite Hd, Nat.eqb_refl, andb_false_r. cbn [bind].
    rewrite resize_zero_foreign by exact Hf. destruct (_ =? _); [|reflexivity].
    rewrite bind_rmap, rmap_bind. apply bind_ext. intros c0 _. rewrite rmap_bind. apply bind_ext. intros n _.
    unfold forM. apply (foldM_rmap foreign). intros l s. rewrite rmap_bind. apply bind_ext. intros ps _.
    apply (foldM_rmap foreign). intros p s1.
    rewrite rmap_bind. apply bind_ext. intros x _. rewrite rmap_bind. apply bind_ext. intros y _.
    rewrite rmap_bind. apply bind_ext. intros ads _.
    apply (foldM_rmap foreign). intros [i pa] s2. rewrite rmap_bind. apply bind_ext. intros z _. apply fma_at_foreign.
Qed.
Print Assumptions C27_foreign_result.

(** C25, C29: the cursor kernel and the BLAS adapter. *)
Theorem C25_foreign_result :
  forall (T1 T2 T3 : Type) (fma : T3 -> T1 -> T2 -> T3) (zero : T3) (a : dense T1) (b : dense T2) (c : dense T3),
    fresh_ok c ->
    mul_cursor fma zero a b (foreign c) =
      (if length (d_buf c) =? d_rows a * d_cols b then rmap foreign (mul_cursor fma zero a b c) else Throw).
Proof.
  intros T1 T2 T3 fma zero a b c Hf. unfold mul_cursor. rewrite d_resize_foreign by exact Hf.
  destruct (length (d_buf c) =? d_rows a * d_cols b) eqn:E; cbn [negb]; [|reflexivity].
  destruct Hf as (S & B & W). unfold d_resize. rewrite W, andb_false_r. cbn [fst].
  unfold forM at 1 3. apply (foldM_rmap foreign). intros i s. unfold forM. apply (foldM_rmap foreign). intros j s1.
  cbn [foreign d_buf d_sh]. cbv zeta. rewrite rmap_bind. apply bind_ext. intros m _. rewrite rmap_bind. apply bind_ext. intros ads _.
  change (with_buf (foreign s1) m) with (foreign (with_buf s1 m)). apply (foldM_rmap foreign). intros [k pa] s2.
  rewrite rmap_bind. apply bind_ext. intros x _. rewrite rmap_bind. apply bind_ext. intros y _. apply fma_at_foreign.
Qed.
Print Assumptions C25_foreign_result.

Theorem C29_foreign_result :
  forall (T : Type) (dot : list (T * T) -> T) dbg (a b c : dense T), fresh_ok c -> d_cols a = d_rows b ->
    mul_blas dot dbg a b (foreign c) =
      (if length (d_buf c) =? d_rows a * d_cols b then rmap foreign (mul_blas dot dbg a b c) else Throw).
Proof.
  intros T dot dbg a b c Hf Hd. unfold mul_blas, cassert. rewrite Hd, Nat.eqb_refl, andb_false_r. cbn [bind].
  rewrite d_resize_foreign by exact Hf.
  destruct (length (d_buf c) =? d_rows a * d_cols b) eqn:E; cbn [negb]; [|reflexivity].
  destruct Hf as (S & B & W). unfold d_resize. rewrite W, andb_false_r. cbn [fst].
  rewrite rmap_bind. apply bind_ext. intros m _. reflexivity.
Qed.
Print Assumptions C29_foreign_result.

(** A caller's array of six elements wrapped as 3 x 2: the 2 x 3 * 3 x 2 product
    needs four, the 3 x 2 * 2 x 2 one six. *)
Example C24_foreign_result_nonvacuous :
  let c := d_external ColMajor 3 2 (map Some [0; 0; 0; 0; 0; 0]%Z) in
  c = foreign (mkDense (d_sh c) (d_full c) (d_buf c) true) /\ fresh_ok (mkDense (d_sh c) (d_full c) (d_buf c) true) /\
  mul_dd s_fma 0%Z true demoC demoB c = Throw /\
  exists d, mul_dd s_fma 0%Z true demoB (d_external ColMajor 2 2 (map Some [1; 0; 0; 1]%Z)) c = Ok d /\
    d_own d = false /\ d_buf d = d_buf demoB.
Proof.
  cbv zeta. split; [reflexivity|]. split; [repeat split|]. split; [vm_compute; reflexivity|].
  eexists. split; [vm_compute; reflexivity|]. split; reflexivity.
Qed.

(** C07.  Move construction of a matrix that is not a window: the new matrix is
    the old one; the moved-from matrix keeps its dimensions and its getSize(), but
    no element of it can be read, and it can never get memory again: every resize
    to a non-zero size throws. *)
Theorem C07_move_exact :
  forall (T : Type) (d : dense T) r c f, is_mat d r c f -> full_ok d ->
    let d' := fst (d_move d) in let old := snd (d_move d) in
    is_mat d' r c f /\ d_orient d' = d_orient d /\ d_getSize d' = r * c /\ d_own d' = d_own d /\
    d_rows old = r /\ d_cols old = c /\ d_getSize old = r * c /\
    (forall i j, i < r -> j < c -> dget true old i j = UB OOBRead) /\
    (forall r' c', snd (d_resize old r' c') = negb (r' * c' =? 0)).
Proof.
  intros T d r c f [W V] F d' old. pose proof V as (R & C & _). pose proof W as (Sb & B & L).
  assert (Ed : d_sh d' = own_shape (d_orient d) r c) by (unfold d', d_move; cbn; now rewrite R, C).
  assert (Gs : d_getSize d = r * c) by (unfold full_ok in F; now rewrite F, R, C).
  split; [|split; [reflexivity|split; [exact Gs|split; [reflexivity|]]]].
  - split.
    + unfold wf_mem, d_rows, d_cols. rewrite Ed. cbn. unfold d', d_move. cbn. rewrite L, R, C. auto.
    + apply view_from_cells; [unfold d_rows; rewrite Ed; reflexivity|unfold d_cols; rewrite Ed; reflexivity|].
      intros i j Hi Hj. pose proof (view_cell d r c f i j V Hi Hj) as E.
      change (d_buf d') with (d_buf d). rewrite <- E. f_equal. rewrite Ed.
      rewrite (own_addr_lin d i j W), R, C. unfold addr, own_shape, lin, getLdRows, getLdColumns; cbn. destruct (d_orient d); lia.
  - unfold old, d_move. cbn [snd]. split; [exact R|]. split; [exact C|]. split; [exact Gs|]. split.
    + intros i j Hi Hj. rewrite dget_in by (unfold d_rows, d_cols in *; cbn; lia). unfold rd. cbn [d_buf].
      destruct (addr _ i j); reflexivity.
    + intros r' c'. unfold d_resize. cbn [d_buf d_own length negb]. rewrite andb_true_r.
      destruct (r' * c'); reflexivity.
Qed.
Print Assumptions C07_move_exact.
Example C07_move_exact_nonvacuous : is_mat demoC 2 3 demoC_f /\ full_ok demoC.
Proof. split; [exact demoC_mat|reflexivity]. Qed.
