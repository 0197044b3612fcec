(** Conversion of blocks sees elements only through the thresholds (C34): all
    elements that are above none of them are interchangeable.  Over IEEE numbers
    NaN is such an element, so the pipeline computes with 0 in its place. *)
From Coq Require Import ZArith Reals Lra.
From Verif Require Import Base BaseLemmas Dense_Model Dense_Spec Dense_Proofs Dense2_Proofs Sparse_Model Sparse_Spec
  Sparse_Proofs Sparse2_Proofs Mult_Model Mult_Spec Dyn_Model Dyn_Spec Dyn_Proofs Dyn2_Proofs Block_Proofs
  Conv_Spec Conv_Proofs Dense_Props Sparse_Props Mult_Props Dyn_Props Fp_Spec Fp_Ieee Fp_Props FpBlk_Props FpRange_Props Exact27_Props.
From Flocq Require Import Core BinarySingleNaN.

(** The matrix with every element [x] replaced by [g x]. *)
Definition d_map {T} (g : T -> T) (m : dense T) : dense T :=
  mkDense (d_sh m) (d_full m) (List.map (option_map g) (d_buf m)) (d_own m).

Lemma rd_map {T} (g : T -> T) b a : rd (List.map (option_map g) b) a = rmap g (rd b a).
Proof.
  unfold rd, rmap. rewrite nth_error_map. destruct (nth_error b a) as [[x|]|]; reflexivity.
Qed.
Lemma rdz_map {T} (g : T -> T) b a : rdz (List.map (option_map g) b) a = rmap g (rdz b a).
Proof. unfold rdz. destruct (_ <? _)%Z; [reflexivity|apply rd_map]. Qed.
Lemma bind_rmap {A B C} (g : A -> B) (x : res A) (k : B -> res C) : bind (rmap g x) k = bind x (fun a => k (g a)).
Proof. destruct x; reflexivity. Qed.
Lemma bind_eq {A B} (x : res A) (f g : A -> res B) : (forall a, f a = g a) -> bind x f = bind x g.
Proof. intros H. apply bind_ext. auto. Qed.

Section Count.
Context {T U : Type} (g : T -> T) (p : T -> bool) (cv : T -> U).
Hypothesis Hp : forall x, p (g x) = p x.
Hypothesis Hc : forall x, p x = true -> cv (g x) = cv x.

Lemma count_map m : d_count p (d_map g m) = d_count p m.
Proof.
  unfold d_count, iter_addrs, d_map; cbn [d_sh d_buf]. rewrite map_length.
  apply bind_eq. intros ads. apply foldM_ext. intros a n _. rewrite rdz_map, bind_rmap. apply bind_eq. intros x. now rewrite Hp.
Qed.
Lemma window_map zero m : d_conv_window cv zero p (d_map g m) = d_conv_window cv zero p m.
Proof.
  unfold d_conv_window, d_rows, d_cols, d_getSize, d_map; cbn [d_sh d_buf d_full].
  apply bind_eq. intros ads. apply foldM_ext. intros [k a] d _. rewrite rdz_map, bind_rmap. apply bind_eq. intros x. rewrite Hp.
  destruct (p x) eqn:E; [now rewrite Hc|reflexivity].
Qed.
Lemma sparse_map o n m : s_of_dense_nnz cv p o n (d_map g m) = s_of_dense_nnz cv p o n m.
Proof.
  unfold s_of_dense_nnz, d_rows, d_cols, d_orient, d_map; cbn [d_sh d_buf d_full].
  destruct (if orient_eqb o (sh_o (d_sh m)) then (DCol, DRow) else (DRow, DCol)) as [d1 d2].
  match goal with |- bind ?a ?k = bind ?b ?k => assert (E : a = b); [|now rewrite E] end.
  apply forM_ext_lt. intros l [[[vs ks] offs] k] _. apply bind_eq. intros offs'. apply bind_eq. intros ads.
  match goal with |- bind ?a ?k = bind ?b ?k => assert (E : a = b); [|now rewrite E] end.
  apply foldM_ext. intros [q a] [[vs' ks'] k'] _. rewrite rd_map, bind_rmap. apply bind_eq. intros x. rewrite Hp.
  destruct (p x) eqn:E; [now rewrite Hc|reflexivity].
Qed.
Lemma to_sparse_map o m : s_of_dense cv p o (d_map g m) = s_of_dense cv p o m.
Proof. unfold s_of_dense. rewrite count_map. apply bind_eq. intros n. apply sparse_map. Qed.
End Count.

Section Convert.
Context {F D : Type} (ar : arith F D) (th : threshold D) (g : D -> D).
(** [g] moves only elements that are above no threshold, to others of that kind. *)
Definition below_all (x : D) : Prop :=
  ltD ar (d0 ar) (absD ar x) = false /\ ltD ar (sigD th) (absD ar x) = false /\ ltD ar (sigF th) (absD ar x) = false.
Hypothesis Hg : forall x, g x = x \/ below_all x /\ below_all (g x).

Lemma leaf_map t p m : sh_sub (d_sh m) = true ->
  (forall x, p (g x) = p x) -> (forall x, p x = true -> g x = x) -> leaf_chk ar t p (d_map g m) = leaf_chk ar t p m.
Proof.
  intros HS Hp Hx. unfold leaf_chk, dense_chk. change (sh_sub (d_sh (d_map g m))) with (sh_sub (d_sh m)). rewrite HS.
  assert (HF : forall x, p x = true -> toF ar (g x) = toF ar x) by (intros x E; now rewrite Hx).
  destruct t as [|[]|[]]; [reflexivity|..].
  - now rewrite (to_sparse_map g p (toF ar) Hp HF).
  - now rewrite (to_sparse_map g p (fun x => x) Hp Hx).
  - now rewrite (window_map g p (toF ar) Hp HF).
  - now rewrite (window_map g p (fun x => x) Hp Hx).
Qed.
Definition ask (p : D -> bool) : Prop := (forall x, p (g x) = p x) /\ forall x, p x = true -> g x = x.
Lemma ask_gt t : t = d0 ar \/ t = sigD th \/ t = sigF th -> ask (fun x => ltD ar t (absD ar x)).
Proof.
  intros Ht. split; intros x; (destruct (Hg x) as [E|[(A1 & A2 & A3) (B1 & B2 & B3)]]; [now rewrite ?E|]);
    destruct Ht as [->|[->| ->]]; congruence.
Qed.
Lemma ask_range : ask (fun x => ltD ar (sigD th) (absD ar x) && leD ar (absD ar x) (sigF th)).
Proof.
  split; intros x; (destruct (Hg x) as [E|[(A1 & A2 & A3) (B1 & B2 & B3)]]; [now rewrite ?E|]).
  - now rewrite A2, B2.
  - rewrite A2. discriminate.
Qed.
Lemma convertible_map m t : is_convertible ar th (d_map g m) t = is_convertible ar th m t.
Proof.
  unfold is_convertible, gt_new, occupation. change (d_getSize (d_map g m)) with (d_getSize m).
  destruct (ltD ar (sigD th) (d0 ar)); [reflexivity|]. cbn [bind].
  rewrite (count_map g) by (apply ask_gt; auto).
  apply bind_eq. intros od. destruct (negb _); [reflexivity|].
  destruct (ltD ar (sigF th) (d0 ar)); [reflexivity|]. cbn [bind].
  now rewrite (count_map g) by (apply ask_gt; auto).
Qed.
Lemma convert_to_map exc dbg m t : sh_sub (d_sh m) = true -> convert_to ar exc dbg th (d_map g m) t = convert_to ar exc dbg th m t.
Proof.
  intros HS.
  assert (L0 : forall t, leaf_chk ar t (fun x => ltD ar (d0 ar) (absD ar x)) (d_map g m) = leaf_chk ar t (fun x => ltD ar (d0 ar) (absD ar x)) m)
    by (intros; apply leaf_map; auto; apply ask_gt; auto).
  assert (L1 : forall t, leaf_chk ar t (fun x => ltD ar (sigF th) (absD ar x)) (d_map g m) = leaf_chk ar t (fun x => ltD ar (sigF th) (absD ar x)) m)
    by (intros; apply leaf_map; auto; apply ask_gt; auto).
  assert (L2 : forall t, leaf_chk ar t (fun x => ltD ar (sigD th) (absD ar x) && leD ar (absD ar x) (sigF th)) (d_map g m) =
                 leaf_chk ar t (fun x => ltD ar (sigD th) (absD ar x) && leD ar (absD ar x) (sigF th)) m)
    by (intros; apply leaf_map; auto; apply ask_range).
  unfold convert_to, gt_new, range_new. destruct t as [[|[]|e]|t1 t2].
  - reflexivity.
  - destruct (ltD ar (sigD th) _); [reflexivity|]. destruct (ltD ar (sigF th) _); [reflexivity|]. destruct (leD _ _ _); [reflexivity|].
    cbn [bind]. now rewrite L2.
  - destruct (ltD ar (sigF th) _); [reflexivity|]. cbn [bind]. now rewrite L1.
  - destruct (ltD ar (d0 ar) _); [reflexivity|]. cbn [bind]. now rewrite L0.
  - destruct (ltD ar (sigF th) _); [reflexivity|]. cbn [bind]. rewrite L1. apply bind_eq. intros x1.
    destruct (ltD ar (sigD th) _); [reflexivity|]. destruct (leD _ _ _); [reflexivity|]. cbn [bind]. now rewrite L2.
Qed.
Lemma convert_map exc dbg m : sh_sub (d_sh m) = true -> convert ar exc dbg th (d_map g m) = convert ar exc dbg th m.
Proof.
  intros HS. unfold convert. induction type_list as [|t l IH]; [reflexivity|].
  destruct l as [|t' l]; cbn [convert_first].
  - rewrite convertible_map. apply bind_eq. intros c. apply bind_eq. intros _. now apply convert_to_map.
  - rewrite convertible_map. apply bind_eq. intros []; [now apply convert_to_map|exact IH].
Qed.
Lemma cut_map exc dbg m rl cl : cut ar exc dbg th (d_map g m) rl cl = cut ar exc dbg th m rl cl.
Proof.
  unfold cut. change (d_rows (d_map g m)) with (d_rows m). change (d_cols (d_map g m)) with (d_cols m). cbv zeta.
  match goal with |- bind ?a ?k = bind ?b ?k => assert (E : a = b); [|now rewrite E] end.
  apply forM_ext_lt. intros i [B ro] _. destruct (nth_error rl i) as [nr|]; [|reflexivity]. apply bind_eq. intros ads.
  match goal with |- bind ?a ?k = bind ?b ?k => assert (E : a = b); [|now rewrite E] end.
  apply foldM_ext. intros [k pa] [B' co] _. destruct (nth_error cl k) as [nc|]; [|reflexivity].
  change (d_window (d_map g m) nr nc ro co) with (d_map g (d_window m nr nc ro co)). now rewrite convert_map.
Qed.
End Convert.

(** C34: two matrices that differ only in elements above no threshold are cut
    into the same blocks, and fail alike. *)
Theorem C34_insignificant_elements :
  forall (F D : Type) (ar : arith F D) exc dbg th (g : D -> D) (m : dense D) rl cl,
    (forall x, g x = x \/ below_all ar th x /\ below_all ar th (g x)) ->
    cut ar exc dbg th (d_map g m) rl cl = cut ar exc dbg th m rl cl /\
    (sh_sub (d_sh m) = true -> convert ar exc dbg th (d_map g m) = convert ar exc dbg th m).
Proof. intros F D ar exc dbg th g m rl cl Hg. split; [now apply cut_map|intros; now apply convert_map]. Qed.
Print Assumptions C34_insignificant_elements.

(** NaN is cut as 0 would be. *)
Definition nan_to_0 (x : f64) : f64 := if is_nan x then B754_zero false else x.
Theorem C34_nan_is_cut_as_zero_refuted :
  forall exc dbg th (m : dense f64) rl cl, valid_thr ieee th ->
    cut ieee exc dbg th (d_map nan_to_0 m) rl cl = cut ieee exc dbg th m rl cl.
Proof.
  intros exc dbg th m rl cl (T1 & T2 & _ & T4). apply cut_map. intros x. unfold nan_to_0.
  destruct (is_nan x) eqn:N; [right|now left].
  assert (NA : is_nan (Babs x) = true) by (now rewrite abs_nan).
  split; (split; [|split]); cbn [ieee ltD absD d0] in *; try (apply nan_lt_r; auto; fail); auto.
Qed.
Print Assumptions C34_nan_is_cut_as_zero_refuted.

Lemma d_map_mat {T} (g : T -> T) m r c f : is_mat m r c f -> is_mat (d_map g m) r c (fun i j => g (f i j)).
Proof.
  intros [(W1 & W2 & W3) (V1 & V2 & V3)]. split; [split; [|split]|split; [|split]]; auto.
  - unfold d_map, d_rows, d_cols; cbn [d_sh d_buf]. now rewrite map_length.
  - intros i j Hi Hj. specialize (V3 i j Hi Hj). unfold dget, d_map in *; cbn [d_sh d_buf] in *.
    unfold d_rows, d_cols in *; cbn [d_sh] in *.
    destruct (position true (d_sh m) i j); cbn [bind] in *; try discriminate.
    rewrite rd_map, V3. reflexivity.
Qed.

(** NaN elements and finite elements up to 2^50 in absolute value: the product is
    made of finite numbers, those of the matrices with 0 in place of NaN ([val] of
    NaN is 0).  No NaN is ever in the result. *)
Local Open Scope R_scope.
Theorem C62_nan_is_multiplied_as_zero_refuted :
  forall ready p exc dbg (A B : dense f64) m n l fa fb rl nl cl,
    (forall t, In t type_list -> ready t = true) ->
    (forall I K J, I < length rl -> K < length nl -> J < length cl -> fits p (nth I rl 0) (nth K nl 0) (nth J cl 0))%nat ->
    is_mat A m n fa -> d_orient A = ColMajor -> (Z.of_nat (length (d_buf A)) < 2 ^ 63)%Z ->
    is_mat B n l fb -> d_orient B = ColMajor -> (Z.of_nat (length (d_buf B)) < 2 ^ 63)%Z ->
    partition rl m -> partition nl n -> partition cl l -> (1 <= n <= 2 ^ 20)%nat ->
    (forall i j, (i < m)%nat -> (j < n)%nat -> is_nan (fa i j) = true \/ finite (fa i j) /\ Rabs (val (fa i j)) <= bpow radix2 50) ->
    (forall i j, (i < n)%nat -> (j < l)%nat -> is_nan (fb i j) = true \/ finite (fb i j) /\ Rabs (val (fb i j)) <= bpow radix2 50) ->
    exists a' b' c d h, cut ieee exc dbg default_threshold A rl nl = Ok a' /\ cut ieee exc dbg default_threshold B nl cl = Ok b' /\
      mul_blocked ieee ready p dbg a' b' = Ok c /\ dense_of_blocked ieee exc dbg c = Ok d /\ is_mat d m l h /\
      forall i j, (i < m)%nat -> (j < l)%nat -> finite (h i j) /\
        Rabs (val (h i j) - rsum n (fun q => val (fa i q) * val (fb q j))) <=
          block_bound p n (fun q => Rabs (val (fa i q))) (fun q => Rabs (val (fb q j))).
Proof.
  intros ready p exc dbg A B m n l fa fb rl nl cl Hr Hf MA OA LA MB OB LB P1 P2 P3 Hn FA FB.
  assert (V : forall x : f64, val (nan_to_0 x) = val x).
  { intros x. unfold nan_to_0. destruct x; reflexivity. }
  assert (G : forall x : f64, is_nan x = true \/ finite x /\ Rabs (val x) <= bpow radix2 50 ->
    finite (nan_to_0 x) /\ Rabs (val (nan_to_0 x)) <= bpow radix2 50).
  { intros x Hx. rewrite V. unfold nan_to_0. destruct (is_nan x) eqn:N.
    - split; [reflexivity|]. destruct x; try discriminate. change (Rabs 0 <= bpow radix2 50). rewrite Rabs_R0. apply bpow_ge_0.
    - destruct Hx as [Hx|Hx]; [congruence|exact Hx]. }
  assert (TH : valid_thr ieee default_threshold) by (repeat split; vm_compute; reflexivity).
  destruct (C62_moderate_matrices ready p exc dbg (d_map nan_to_0 A) (d_map nan_to_0 B) m n l
    (fun i j => nan_to_0 (fa i j)) (fun i j => nan_to_0 (fb i j)) rl nl cl Hr Hf) as (a & b & c & d & h & Ea & Eb & Ec & Ed & Md & Hh);
    try assumption; try (now apply d_map_mat);
    try (unfold d_map; cbn [d_buf]; rewrite map_length; assumption);
    try (intros i j Hi Hj; apply G; auto).
  rewrite C34_nan_is_cut_as_zero_refuted in Ea by assumption. rewrite C34_nan_is_cut_as_zero_refuted in Eb by assumption.
  exists a, b, c, d, h. repeat (split; [assumption|]). intros i j Hi Hj.
  destruct (Hh i j Hi Hj) as [Fh Bh]. split; [exact Fh|].
  assert (E1 : forall n' (f f' : nat -> R), (forall q, f q = f' q) -> rsum n' f = rsum n' f').
  { intros n' f f' E. induction n' as [|n' IH]; [reflexivity|]. cbn [rsum]. now rewrite IH, E. }
  rewrite (E1 n _ (fun q => val (fa i q) * val (fb q j))) in Bh by (intros q; now rewrite !V).
  eapply Rle_trans; [exact Bh|]. right. unfold block_bound.
  cbv zeta. destruct p; repeat (f_equal; try (apply E1; intros q; now rewrite ?V)).
Qed.
Print Assumptions C62_nan_is_multiplied_as_zero_refuted.

(** A 1 x 1 matrix of NaN times itself, in one block: the result is finite. *)
Example C62_nan_nonvacuous :
  is_mat nan11 1 1 (fun _ _ => B754_nan) /\ d_orient nan11 = ColMajor /\ partition [1%nat] 1 /\
  d_map nan_to_0 nan11 = mkDense (own_shape ColMajor 1 1) 1 [Some (B754_zero false)] true /\
  cut ieee true true default_threshold nan11 [1%nat] [1%nat] = cut ieee true true default_threshold (d_map nan_to_0 nan11) [1%nat] [1%nat].
Proof.
  split; [|split; [|split; [|split]]]; try reflexivity.
  - split; [repeat split|]. split; [|split]; try reflexivity. intros [|i] [|j] Hi Hj; try lia. reflexivity.
  - repeat constructor.
Qed.
Print Assumptions C62_nan_nonvacuous.

(** Replacing NaN by 0 is such a change, and changes the matrix. *)
Example C34_insignificant_nonvacuous :
  (forall x, nan_to_0 x = x \/ below_all ieee default_threshold x /\ below_all ieee default_threshold (nan_to_0 x)) /\
  d_map nan_to_0 nan11 <> nan11.
Proof.
  split; [|discriminate].
  assert (TH : valid_thr ieee default_threshold) by (repeat split; vm_compute; reflexivity).
  destruct TH as (T1 & T2 & _ & T4). intros x. unfold nan_to_0. destruct (is_nan x) eqn:N; [right|now left].
  assert (NA : is_nan (Babs x) = true) by (now rewrite abs_nan).
  split; (split; [|split]); cbn [ieee ltD absD d0] in *; try (apply nan_lt_r; auto; fail); auto.
Qed.
Print Assumptions C34_insignificant_nonvacuous.
