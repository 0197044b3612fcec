From Coq Require Import Permutation.
From Verif Require Import Base BaseLemmas Dense_Model Dense_Spec Dense_Proofs Dense2_Proofs Sparse_Model Sparse_Spec
  Sparse_Proofs Sparse2_Proofs Mult_Model Mult_Spec Dyn_Model Dyn_Spec Dyn_Proofs Dyn2_Proofs Block_Proofs
  Check_Model Check_Spec Norm_Model Norm_Spec.

(** ** values read, in order *)
Lemma storage_order_map {T} o r c (f : nat -> nat -> T) :
  in_storage_order o r c f = map (fun p => f (fst p) (snd p)) (order o r c).
Proof.
  assert (G : forall (h : nat -> nat -> T) a b, flat_map (fun i => map (fun j => h i j) (seq 0 b)) (seq 0 a) =
    map (fun p => h (fst p) (snd p)) (pairs a b)).
  { intros h a b. unfold pairs. generalize (seq 0 a) as l. induction l as [|x l IH]; [reflexivity|].
    cbn [flat_map]. rewrite map_app, IH, map_map. reflexivity. }
  destruct o; cbn [in_storage_order order]; [apply G|].
  rewrite map_map. exact (G (fun j i => f i j) c r).
Qed.

Section Values.
Context {F D : Type} (ar : arith F D) (nx : nops F D).

Lemma norm_dense_val {T} (acc : D -> T -> D) k (d : dense T) r c f :
  view d r c f -> iterable d ->
  norm_dense ar nx acc k d = Ok (n_fin nx k (fold_left acc (in_storage_order (d_orient d) r c f) (d0 ar))).
Proof.
  intros Hv Hi. unfold norm_dense. rewrite iter_addrs_ok by auto. cbn [bind]. rewrite foldM_map.
  rewrite storage_order_map. pose proof Hv as (Hr & Hc & _). rewrite Hr, Hc.
  assert (G : forall l s, (forall i j, In (i, j) l -> i < r /\ j < c) ->
    foldM (fun p s => do x <- rdz (d_buf d) (Z.of_nat (addr (d_sh d) (fst p) (snd p))); Ok (acc s x)) l s
    = Ok (fold_left acc (map (fun p => f (fst p) (snd p)) l) s)).
  { induction l as [|[i j] t IH]; intros s Hin; [reflexivity|].
    destruct (Hin i j (or_introl eq_refl)) as (Hi' & Hj'). cbn [foldM fst snd map fold_left].
    rewrite rdz_nat. pose proof (view_cell d r c f i j Hv Hi' Hj') as E. apply rd_ok in E. rewrite E. cbn [bind].
    apply IH. intros; apply Hin; now right. }
  rewrite G; [reflexivity|]. intros i j Hin. now apply in_order in Hin.
Qed.

Lemma foldM_read {T} (acc : D -> T -> D) (l : list T) : forall pre s,
  foldM (fun a t => do x <- rd (map Some (pre ++ l)) a; Ok (acc t x)) (seq (length pre) (length l)) s = Ok (fold_left acc l s).
Proof.
  induction l as [|x l IH]; intros pre s; [reflexivity|].
  cbn [length seq foldM fold_left].
  assert (E : rd (map Some (pre ++ x :: l)) (length pre) = Ok x).
  { apply rd_ok. rewrite nth_error_map, nth_error_app2, Nat.sub_diag by lia. reflexivity. }
  rewrite E. cbn [bind]. specialize (IH (pre ++ [x]) (acc s x)). rewrite <- app_assoc in IH. cbn [app] in IH.
  rewrite <- IH, app_length. cbn [length]. rewrite Nat.add_1_r. reflexivity.
Qed.

Lemma norm_sparse_val {T} (acc : D -> T -> D) k (s : sparse T) L :
  repr s L -> length L = s_minor s -> compact s ->
  norm_sparse ar nx acc k s = Ok (n_fin nx k (fold_left acc (map snd (concat L)) (d0 ar))).
Proof.
  intros HR HL HC. unfold compact in HC. rewrite <- HL in HC.
  rewrite (repr_off s L HR) in HC by lia. injection HC as HC. rewrite start_all in HC.
  destruct HR as (_ & tv & tk & Ev & _ & _). unfold norm_sparse.
  assert (tv = []). { unfold s_nnz in HC. rewrite Ev, app_length, map_length in HC. destruct tv; [auto|cbn in HC; lia]. }
  subst tv. rewrite app_nil_r in Ev.
  assert (Ev' : s_val s = map Some ([] ++ map snd (concat L))) by (rewrite Ev; cbn [app]; now rewrite map_map).
  rewrite Ev'. rewrite map_length. cbn [app].
  pose proof (foldM_read acc (map snd (concat L)) [] (d0 ar)) as E. cbn [app length] in E. rewrite E. reflexivity.
Qed.
End Values.

(** ** sums *)
Section Sums.
Context {F D : Type} (ar : arith F D) (nx : nops F D) {SD : Scalar D} (X : exact ar).
Local Instance RL : RingLaws D := ex_ring ar X.

Definition lsum (l : list D) : D := fold_right sadd s0 l.
Lemma add0r (a : D) : sadd a s0 = a. Proof. now rewrite r_addC, r_add0l. Qed.
Lemma lsum_app a b : lsum (a ++ b) = sadd (lsum a) (lsum b).
Proof. induction a as [|x a IH]; cbn; [now rewrite r_add0l|]. fold (lsum (a ++ b)). rewrite IH. apply r_addA. Qed.
Lemma lsum_perm a b : Permutation a b -> lsum a = lsum b.
Proof.
  induction 1 as [|x l l' _ IH|x y l|l l' l'' _ IH1 _ IH2]; cbn; auto.
  - unfold lsum in IH. now rewrite IH.
  - rewrite !r_addA. now rewrite (r_addC y x).
  - congruence.
Qed.
Lemma fold_lsum {T} (h : T -> D) l s : fold_left (fun a x => addD ar a (h x)) l s = sadd s (lsum (map h l)).
Proof.
  revert s. induction l as [|x l IH]; intros s; cbn; [now rewrite add0r|].
  rewrite IH, (ex_addD ar X). symmetry. apply r_addA.
Qed.
Lemma lsum_flat {A} (g : A -> list D) l : lsum (flat_map g l) = lsum (map (fun x => lsum (g x)) l).
Proof. induction l as [|x l IH]; [reflexivity|]. cbn [flat_map map]. rewrite lsum_app, IH. reflexivity. Qed.
Lemma sum_n_lsum n h : sum_n n h = lsum (map h (seq 0 n)).
Proof.
  induction n as [|n IH]; [reflexivity|]. rewrite seq_S, map_app, lsum_app, <- IH. cbn. now rewrite add0r.
Qed.
Lemma sum2_order o r c (h : nat -> nat -> D) : sum2 r c h = lsum (map (fun p => h (fst p) (snd p)) (order o r c)).
Proof.
  rewrite (lsum_perm _ _ (Permutation_map _ (order_perm o RowMajor r c))). rewrite <- (storage_order_map RowMajor).
  cbn [in_storage_order]. rewrite lsum_flat. unfold sum2. rewrite sum_n_lsum.
  f_equal. apply map_ext. intros i. now rewrite sum_n_lsum.
Qed.
Lemma sum2_swap r c h : sum2 r c h = sum2 c r (fun j i => h i j).
Proof.
  rewrite (sum2_order ColMajor), (sum2_order RowMajor). cbn [order]. rewrite map_map. reflexivity.
Qed.
Lemma sum2_ext r c h h' : (forall i j, i < r -> j < c -> h i j = h' i j) -> sum2 r c h = sum2 r c h'.
Proof. intros H. apply sum_n_ext. intros i Hi. apply sum_n_ext. auto. Qed.

(** a matrix whose rows are sums over possibly absent elements *)
Lemma sum_n_point n k x (G : nat -> D) : k < n -> G k = s0 ->
  sum_n n (fun i => if k =? i then x else G i) = sadd x (sum_n n G).
Proof.
  revert k. induction n as [|n IH]; intros k Hk HG; [lia|]. cbn [sum_n].
  destruct (Nat.eqb_spec k n) as [->|Hne].
  - rewrite HG, add0r, r_addC. f_equal. apply sum_n_ext. intros i Hi. destruct (Nat.eqb_spec n i); [lia|reflexivity].
  - rewrite IH by (auto; lia). symmetry. apply r_addA.
Qed.
Lemma line_sum {T} maj (h : option T -> D) (line : list (nat * T)) : h None = s0 -> line_ok maj line ->
  lsum (map (fun e => h (Some (snd e))) line) = sum_n maj (fun k => h (lk k line)).
Proof.
  intros H0 [HS HB]. apply SSorted_NoDup in HS. induction line as [|[k v] t IH].
  - cbn. symmetry. apply (sum_n_zero ar X); auto.
  - cbn [map fst] in HS, HB. inversion HS as [|? ? Hni Hnd]; subst. inversion HB as [|? ? Hk Hb]; subst.
    cbn [map]. cbn [lsum fold_right snd]. fold (lsum (map (fun e => h (Some (snd e))) t)). rewrite IH by auto.
    rewrite <- (sum_n_point maj k (h (Some v)) (fun i => h (lk i t))); auto.
    + apply sum_n_ext. intros i Hi. rewrite lk_cons. destruct (k =? i); reflexivity.
    + rewrite lk_None by auto. exact H0.
Qed.
Lemma lines_sum {T} (s : sparse T) L (f : nat -> nat -> option T) (h : option T -> D) : h None = s0 ->
  length L = s_minor s -> lines_ok (s_major s) L -> denotes s L f ->
  lsum (map (fun e => h (Some (snd e))) (concat L)) = sum2 (s_rows s) (s_cols s) (fun i j => h (f i j)).
Proof.
  intros H0 HL HO HD.
  assert (E1 : lsum (map (fun e => h (Some (snd e))) (concat L)) =
               sum_n (s_minor s) (fun l => sum_n (s_major s) (fun k => h (lk k (nth l L []))))).
  { rewrite sum_n_lsum, <- HL. clear HL HD. induction L as [|line L IH]; [reflexivity|].
    inversion HO as [|? ? H1 H2]; subst. cbn [concat length seq map]. rewrite map_app, lsum_app, IH by auto.
    rewrite (line_sum (s_major s)) by auto. cbn [lsum fold_right]. f_equal. unfold lsum.
    rewrite <- seq_shift, map_map. reflexivity. }
  rewrite E1. unfold denotes, line_of, key_of in HD. unfold s_minor, s_major in *. destruct (s_o s).
  - apply sum_n_ext. intros i Hi. apply sum_n_ext. intros j Hj. now rewrite HD.
  - rewrite sum2_swap. apply sum_n_ext. intros j Hj. apply sum_n_ext. intros i Hi. now rewrite HD.
Qed.

(** sums over blocks *)
Lemma sum_n_offs l (h : nat -> D) :
  sum_n (list_sum l) h = sum_n (length l) (fun k => sum_n (nth k l 0) (fun i => h (offs l k + i))).
Proof.
  assert (G : forall n, n <= length l ->
    sum_n (offs l n) h = sum_n n (fun k => sum_n (nth k l 0) (fun i => h (offs l k + i)))).
  { induction n as [|n IH]; intros Hn; [reflexivity|]. rewrite offs_S by lia. cbn [sum_n].
    rewrite (sum_n_app ar X), IH by lia. reflexivity. }
  rewrite <- (G (length l)) by lia. now rewrite offs_all.
Qed.
Lemma sum2_blocks rl cl (h : nat -> nat -> D) :
  sum2 (length rl) (length cl) (fun I J => sum2 (nth I rl 0) (nth J cl 0) (fun i j => h (offs rl I + i) (offs cl J + j)))
  = sum2 (list_sum rl) (list_sum cl) h.
Proof.
  symmetry. unfold sum2 at 1. rewrite sum_n_offs. unfold sum2 at 1. apply sum_n_ext. intros I HI.
  transitivity (sum_n (nth I rl 0) (fun i => sum_n (length cl) (fun J => sum_n (nth J cl 0) (fun j => h (offs rl I + i) (offs cl J + j))))).
  { apply sum_n_ext. intros i Hi. apply sum_n_offs. }
  exact (sum2_swap (nth I rl 0) (length cl) (fun i J => sum_n (nth J cl 0) (fun j => h (offs rl I + i) (offs cl J + j)))).
Qed.
End Sums.

(** ** the norms *)
Section Norms.
Context {F D : Type} (ar : arith F D) (nx : nops F D) {SD : Scalar D} (NX : nexact ar nx).
Let X : exact ar := nx_exact ar nx NX.
Local Instance RL2 : RingLaws D := ex_ring ar X.

Lemma le_refl' (L : linear ar) x : le ar x x. Proof. now right. Qed.
Lemma le_trans' (L : linear ar) x y z : le ar x y -> le ar y z -> le ar x z.
Proof.
  intros [H| ->] [H'| ->]; try (left; assumption); [left; exact (ln_trans ar L x y z H H')|now right].
Qed.
Lemma le_antisym' (L : linear ar) x y : le ar x y -> le ar y x -> x = y.
Proof.
  intros [H| ->] [H'| H']; auto. pose proof (ln_trans ar L x y x H H') as E. now rewrite (ln_irrefl ar L) in E.
Qed.
Lemma maxD_l (L : linear ar) a b : le ar a (maxD ar a b).
Proof. unfold maxD. destruct (ltD ar a b) eqn:E; [now left|now right]. Qed.
Lemma maxD_r (L : linear ar) a b : le ar b (maxD ar a b).
Proof.
  unfold maxD. destruct (ltD ar a b) eqn:E; [now right|].
  destruct (ln_total ar L a b) as [H|[H|H]]; [congruence|now right|now left].
Qed.
Lemma maxD_or a b : maxD ar a b = a \/ maxD ar a b = b.
Proof. unfold maxD. destruct (ltD ar a b); auto. Qed.

Lemma fold_max {T} (L : linear ar) (h : T -> D) l s :
  let m := fold_left (fun a x => maxD ar a (h x)) l s in
  le ar s m /\ (forall x, In x l -> le ar (h x) m) /\ (m = s \/ exists x, In x l /\ m = h x).
Proof.
  cbn zeta. revert s. induction l as [|y l IH]; intros s; cbn [fold_left].
  - split; [now right|]. split; [contradiction|now left].
  - destruct (IH (maxD ar s (h y))) as (H1 & H2 & H3). split; [|split].
    + eapply le_trans'; [exact L| |exact H1]. now apply maxD_l.
    + intros x [<-|Hx]; [|now apply H2]. eapply le_trans'; [exact L| |exact H1]. now apply maxD_r.
    + destruct H3 as [H3|(x & Hx & H3)].
      * destruct (maxD_or s (h y)) as [E|E]; rewrite E in H3 at 2; [now left|right].
        exists y. split; [now left|exact H3].
      * right. exists x. split; [now right|exact H3].
Qed.

Lemma is_max_intro (L : linear ar) (P : abs_pos ar) r c g m :
  (forall i j, i < r -> j < c -> le ar (absD ar (g i j)) m) ->
  m = s0 \/ (exists i j, i < r /\ j < c /\ m = absD ar (g i j)) -> is_norm_max ar r c g m.
Proof.
  intros H1 H2. split; [exact H1|]. destruct H2 as [->|H2]; [|now right].
  destruct r as [|r]; [left; auto|]. destruct c as [|c]; [left; auto|].
  right. exists 0, 0. split; [lia|]. split; [lia|]. apply le_antisym'; [exact L|apply P|]. apply H1; lia.
Qed.

Lemma fold_left_ext {A B} (f g : A -> B -> A) l s : (forall a b, f a b = g a b) -> fold_left f l s = fold_left g l s.
Proof. intros H. revert s. induction l as [|x l IH]; intros s; cbn; [reflexivity|]. rewrite H. apply IH. Qed.
Lemma fold_left_map' {A B C} (f : A -> B -> A) (h : C -> B) l s :
  fold_left f (map h l) s = fold_left (fun a x => f a (h x)) l s.
Proof. revert s. induction l as [|x l IH]; intros s; cbn; [reflexivity|]. apply IH. Qed.

(** From the values read (as doubles) to the norm of the array. *)
Definition elems (k : nkind) (l : list D) : D := fold_left (n_accD ar nx k) l (d0 ar).

Lemma accF_accD k a x : n_accF ar nx k a x = n_accD ar nx k a (toD ar x).
Proof. destruct k; cbn; rewrite ?(nx_absF ar nx NX), ?(nx_sqF ar nx NX); reflexivity. Qed.

(** All elements of the array are read, or all but zeros. *)
Lemma elems_norm k l r c g : k_ok ar nx k ->
  (forall h : D -> D, h s0 = s0 -> lsum (map h l) = sum2 r c (fun i j => h (g i j))) ->
  (forall x, In x l -> exists i j, i < r /\ j < c /\ x = g i j) ->
  (forall i j, i < r -> j < c -> In (g i j) l \/ g i j = s0) ->
  is_norm ar nx k r c g (n_fin nx k (elems k l)).
Proof.
  intros K HS HI HC. destruct k; cbn [is_norm n_fin elems n_accD].
  - unfold elems. cbn [n_accD]. rewrite (fold_lsum ar X (absD ar)), (ex_d0 ar X), r_add0l.
    unfold norm1. rewrite <- (HS (absD ar)); [reflexivity|apply (nx_abs0 ar nx NX)].
  - unfold elems. cbn [n_accD]. rewrite (fold_lsum ar X (sqD nx)), (ex_d0 ar X), r_add0l.
    unfold norm2, sumsq. rewrite <- (HS (sqD nx)); [reflexivity|apply (nx_sq0 ar nx NX)].
  - destruct K as [L P]. unfold elems. cbn [n_accD].
    destruct (fold_max L (absD ar) l (d0 ar)) as (H1 & H2 & H3). cbn zeta in *. rewrite (ex_d0 ar X) in *.
    apply is_max_intro; auto.
    + intros i j Hi Hj. destruct (HC i j Hi Hj) as [H|H]; [now apply H2|]. rewrite H, (nx_abs0 ar nx NX). exact H1.
    + destruct H3 as [H3|(x & Hx & H3)]; [now left|right]. destruct (HI x Hx) as (i & j & Hi & Hj & ->). eauto.
Qed.

Lemma dense_elems k (g : nat -> nat -> D) o r c : k_ok ar nx k ->
  is_norm ar nx k r c g (n_fin nx k (elems k (in_storage_order o r c g))).
Proof.
  intros K. apply elems_norm; auto.
  - intros h _. rewrite storage_order_map, map_map, (sum2_order ar X o). reflexivity.
  - intros x. rewrite storage_order_map, in_map_iff. intros ([i j] & <- & H). apply in_order in H as [? ?]. eauto.
  - intros i j Hi Hj. left. rewrite storage_order_map, in_map_iff. exists (i, j). split; [reflexivity|]. now apply in_order.
Qed.
Lemma sparse_elems {T} k (cv : T -> D) (s : sparse T) L f r c : k_ok ar nx k -> s_rows s = r -> s_cols s = c ->
  length L = s_minor s -> lines_ok (s_major s) L -> denotes s L f ->
  is_norm ar nx k r c (fun i j => dflt s0 (option_map cv (f i j))) (n_fin nx k (elems k (map cv (map snd (concat L))))).
Proof.
  intros K Hr Hc HL HO HD. apply elems_norm; auto.
  - intros h H0. rewrite !map_map. subst r c.
    exact (lines_sum ar X s L f (fun o => h (dflt s0 (option_map cv o))) H0 HL HO HD).
  - intros x Hx. rewrite map_map in Hx. apply in_map_iff in Hx as ([k' v] & <- & H).
    apply in_concat in H as (line & Hl & Hin). apply In_nth_error in Hl as (n & En).
    assert (n < s_minor s) by (rewrite <- HL; apply nth_error_Some; congruence).
    pose proof (proj1 (Forall_forall _ _) HO line (nth_error_In _ _ En)) as [HS HB].
    assert (k' < s_major s). { rewrite Forall_forall in HB. apply HB. apply in_map_iff. exists (k', v). auto. }
    apply (lk_In_iff k' line v (SSorted_NoDup _ HS)) in Hin.
    unfold s_minor, s_major, denotes, line_of, key_of in *. destruct (s_o s).
    + exists n, k'. split; [lia|]. split; [lia|]. rewrite HD by lia. rewrite (nth_error_nth L n [] En), Hin. reflexivity.
    + exists k', n. split; [lia|]. split; [lia|]. rewrite HD by lia. rewrite (nth_error_nth L n [] En), Hin. reflexivity.
  - intros i j Hi Hj. destruct (f i j) as [v|] eqn:Ef; [left|now right]. cbn [option_map dflt].
    subst r c. pose proof (HD i j Hi Hj) as E. rewrite Ef in E. symmetry in E. apply lk_In in E.
    rewrite map_map. apply in_map_iff. exists (key_of s i j, v). split; [reflexivity|].
    apply in_concat. exists (nth (line_of s i j) L []). split; [|exact E]. apply nth_In. rewrite HL. now apply line_of_lt.
Qed.

Lemma is_norm_ext k r c g g' v : (forall i j, i < r -> j < c -> g i j = g' i j) ->
  is_norm ar nx k r c g v -> is_norm ar nx k r c g' v.
Proof.
  intros H. destruct k; cbn [is_norm].
  - intros ->. apply sum2_ext. intros. now rewrite H.
  - intros ->. unfold norm2, sumsq. f_equal. apply sum2_ext. intros. now rewrite H.
  - intros [H1 H2]. split; [intros; rewrite <- H by auto; auto|].
    destruct H2 as [H2|(i & j & Hi & Hj & ->)]; [now left|right]. exists i, j. rewrite H by auto. auto.
Qed.

Lemma norm_zero k r c : k_ok ar nx k -> is_norm ar nx k r c (fun _ _ => s0) s0.
Proof.
  intros K. destruct k; cbn [is_norm].
  - unfold norm1, sum2. symmetry. apply (sum_n_zero ar X). intros i _. apply (sum_n_zero ar X). intros j _. apply (nx_abs0 ar nx NX).
  - unfold norm2, sumsq, sum2. rewrite (sum_n_zero ar X); [symmetry; exact K|]. intros i _.
    apply (sum_n_zero ar X). intros j _. apply (nx_sq0 ar nx NX).
  - destruct K as [L P]. apply is_max_intro; auto. intros. rewrite (nx_abs0 ar nx NX). now right.
Qed.

Lemma norm_leaf_spec k l r c g : k_ok ar nx k -> rep_leaf ar l r c g -> l_compact l ->
  exists v, norm_leaf ar nx k l = Ok v /\ is_norm ar nx k r c g v.
Proof.
  intros K H C. destruct l as [z|s|s|d|d]; cbn [rep_leaf norm_leaf l_compact] in *.
  - destruct H as (_ & _ & H). eexists. split; [reflexivity|]. rewrite (ex_d0 ar X) in *.
    eapply is_norm_ext; [|apply norm_zero; exact K]. intros. symmetry. auto.
  - destruct H as (_ & f & M & H). apply sp_mat_lines in M as (Hr & Hc & _ & L & HR & HL & HO & HD).
    eexists. split; [apply (norm_sparse_val ar nx _ k s L HR HL C)|].
    rewrite (fold_left_ext _ _ _ _ (accF_accD k)), <- fold_left_map'.
    eapply is_norm_ext; [|exact (sparse_elems k (toD ar) s L f r c K Hr Hc HL HO HD)].
    intros i j Hi Hj. rewrite H, (ex_d0 ar X) by auto. reflexivity.
  - destruct H as (_ & f & M & H). apply sp_mat_lines in M as (Hr & Hc & _ & L & HR & HL & HO & HD).
    eexists. split; [apply (norm_sparse_val ar nx _ k s L HR HL C)|].
    pose proof (sparse_elems k (fun x => x) s L f r c K Hr Hc HL HO HD) as G. rewrite map_id in G.
    eapply is_norm_ext; [|exact G]. intros i j Hi Hj. rewrite H, (ex_d0 ar X) by auto. now destruct (f i j).
  - destruct H as (_ & f & [W V] & H).
    eexists. split; [apply (norm_dense_val ar nx _ k d r c f V (or_introl W))|].
    rewrite (fold_left_ext _ _ _ _ (accF_accD k)), <- fold_left_map'. rewrite storage_order_map, map_map.
    pose proof (dense_elems k (fun i j => toD ar (f i j)) (d_orient d) r c K) as G. rewrite storage_order_map in G.
    eapply is_norm_ext; [|exact G]. intros. symmetry. auto.
  - destruct H as (_ & [W V]). eexists. split; [apply (norm_dense_val ar nx _ k d r c g V (or_introl W))|].
    apply dense_elems; exact K.
Qed.

Lemma norm_dyn_spec k dbg d r c g : k_ok ar nx k -> rep ar d r c g -> normable d ->
  (k = NOne -> exists l, d = DL l) -> exists v, norm_dyn ar nx k dbg d = Ok v /\ is_norm ar nx k r c g v.
Proof.
  intros K H N K1. destruct d as [l|t1 t2 m1 m2].
  - exact (norm_leaf_spec k l r c g K H N).
  - apply (rep_DM ar X) in H as (a & b & g1 & g2 & -> & -> & T1 & T2 & H1 & H2 & E).
    destruct (plus_spec ar X dbg a b r c g1 g2 H1 H2) as (e & Ee & Ye & Re).
    cbn [norm_dyn deref bind]. assert (Kne : k <> NOne) by (intros ->; destruct (K1 eq_refl); discriminate).
    destruct (norm_leaf_spec k e r c _ K Re) as (v & Ev & Hv).
    { cbn [normable] in N. rewrite <- T1, <- T2, <- Ye in N. destruct e; cbn in *; try contradiction; exact I. }
    exists v. split.
    + destruct k; [congruence| |]; cbn [bind]; rewrite Ee; exact Ev.
    + eapply is_norm_ext; [|exact Hv]. intros; cbv beta. symmetry. auto.
Qed.

Lemma norm_ptr_spec k dbg d : In (dyn_ty d) type_list -> norm_ptr ar nx true k dbg (Some d) = norm_dyn ar nx k dbg d.
Proof.
  intros H. unfold norm_ptr. cbn [deref bind]. unfold norm_table, type_index.
  rewrite nth_error_map, (get_index_in _ _ H). cbn [option_map]. now rewrite mty_eqb_refl.
Qed.

Lemma norm_blocked_spec dbg b rl cl g : sqrtD nx s0 = s0 -> rep_blocked ar b rl cl g ->
  (forall I J d, I < length rl -> J < length cl -> dget true (b_mat b) I J = Ok (Some d) -> normable d) ->
  (forall I J, I < length rl -> J < length cl ->
     let q := sumsq nx (nth I rl 0) (nth J cl 0) (fun i j => g (offs rl I + i) (offs cl J + j)) in
     sqD nx (sqrtD nx q) = q) ->
  norm_blocked ar nx true NTwo dbg b = Ok (norm2 nx (list_sum rl) (list_sum cl) g).
Proof.
  intros S0 (U1 & U2 & O & f & [W V] & B) HN HQ. unfold norm_blocked.
  rewrite iter_addrs_ok by (left; exact W). cbn [bind]. rewrite foldM_map.
  pose proof V as (Hr & Hc & HG). rewrite Hr, Hc. set (o := d_orient (b_mat b)).
  set (q := fun I J => sumsq nx (nth I rl 0) (nth J cl 0) (fun i j => g (offs rl I + i) (offs cl J + j))).
  assert (G : forall l s, (forall i j, In (i, j) l -> i < length rl /\ j < length cl) ->
    foldM (fun p s => do x <- rdz (d_buf (b_mat b)) (Z.of_nat (addr (d_sh (b_mat b)) (fst p) (snd p)));
                      do n <- norm_ptr ar nx true NTwo dbg x; Ok (addD ar s (sqD nx n))) l s
    = Ok (sadd s (lsum (map (fun p => q (fst p) (snd p)) l)))).
  { induction l as [|[i j] t IH]; intros s Hin; [cbn; now rewrite (add0r ar X)|].
    destruct (Hin i j (or_introl eq_refl)) as (Hi' & Hj'). cbn [foldM fst snd map].
    rewrite rdz_nat. pose proof (view_cell _ _ _ f i j V Hi' Hj') as E. apply rd_ok in E. rewrite E. cbn [bind].
    destruct (B i j Hi' Hj') as (d & Ed & Td & Rd). rewrite Ed, norm_ptr_spec by auto.
    destruct (norm_dyn_spec NTwo dbg d _ _ _ S0 Rd) as (v & Ev & Hv); [|discriminate|].
    { apply (HN i j); auto. rewrite HG by auto. now f_equal. }
    rewrite Ev. cbn [bind]. cbn [is_norm] in Hv. subst v.
    rewrite IH by (intros; apply Hin; now right). f_equal. unfold norm2. rewrite (HQ i j) by auto.
    fold (q i j). rewrite (ex_addD ar X). cbn [lsum fold_right]. symmetry. apply r_addA. }
  rewrite G by (intros i j Hin; now apply in_order in Hin). cbn [bind n_fin].
  rewrite (ex_d0 ar X), r_add0l. unfold norm2. do 2 f_equal.
  rewrite <- (sum2_order ar X o). unfold q, sumsq.
  exact (sum2_blocks ar X rl cl (fun i j => sqD nx (g i j))).
Qed.
End Norms.
