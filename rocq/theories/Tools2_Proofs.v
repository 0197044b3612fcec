(** Proofs about Tools_Model.v: type matrices, deviations, pictures, providers,
    generator. *)
From Coq Require Import String NArith Nnat ZifyBool.
From Verif Require Import Base BaseLemmas Dense_Model Dense_Spec Dense_Proofs Striped_Proofs Dense2_Proofs Sparse_Model Sparse_Spec Mult_Spec
  Dyn_Model Dyn_Spec Dyn_Proofs Dyn2_Proofs Block_Proofs Check_Model Check_Spec Norm_Model Norm_Spec Norm_Proofs IO_Proofs Tools_Model Tools_Spec
  Tools_Proofs.
#[local] Arguments Nat.ltb : simpl never.
#[local] Arguments Nat.leb : simpl never.
#[local] Arguments Nat.eqb : simpl never.

(** ** Loops over an owning matrix in storage order *)
Lemma own_iter {T} (d : dense T) r c f : is_mat d r c f -> iter_addrs d = Ok (map Z.of_nat (seq 0 (r * c))).
Proof.
  intros [(Hs & Hb & Hl) (Hr & Hc & _)]. unfold iter_addrs. rewrite Hs, Hb, Hl, Hr, Hc. f_equal.
Qed.
Lemma own_rdz {T} (d : dense T) r c f k : is_mat d r c f -> forall i j, nth_error (order (d_orient d) r c) k = Some (i, j) ->
  rdz (d_buf d) (Z.of_nat k) = Ok (f i j).
Proof.
  intros M i j E. rewrite rdz_nat. apply rd_ok. rewrite (buf_of_mat d r c f M), storage_order_map, map_map, nth_error_map, E. reflexivity.
Qed.
Lemma order_nth o r c k : k < r * c -> exists i j, nth_error (order o r c) k = Some (i, j) /\ i < r /\ j < c.
Proof.
  intros H. destruct (nth_error (order o r c) k) as [[i j]|] eqn:E.
  - exists i, j. split; auto. apply nth_error_In in E. now apply in_order in E.
  - apply nth_error_None in E. rewrite <- (map_length (fun p => lin o r c (fst p) (snd p))), order_lin, seq_length in E. lia.
Qed.

Section Types.
Context {F D : Type}.

Lemma gen_matrix_ok {U} (g : option (dyn F D) -> res U) (b : blocked F D) r c f (u : nat -> nat -> U) :
  blocks_are b r c f -> d_orient (b_mat b) = ColMajor ->
  (forall i j, i < r -> j < c -> g (Some (f i j)) = Ok (u i j)) ->
  exists t, gen_matrix g b = Ok t /\ is_mat t r c u /\ d_orient t = ColMajor /\ full_ok t /\ d_own t = true.
Proof.
  intros M O HG. unfold gen_matrix. rewrite (own_iter _ _ _ _ M). cbn [bind]. rewrite enum_map_seq, foldM_map.
  pose proof M as [W (Hr & Hc & _)]. rewrite Hr, Hc.
  set (t0 := @d_new U ColMajor r c).
  set (US := in_storage_order ColMajor r c u).
  destruct (forM_inv (fun k t =>
      do p <- rdz (d_buf (b_mat b)) (Z.of_nat k); do v <- g p; do m <- wr (d_buf t) k v; Ok (with_buf t m))
    (fun k t => exists bb, t = with_buf t0 bb /\ length bb = r * c /\
       forall p, p < k -> nth_error bb p = option_map Some (nth_error US p)) (r * c) t0) as (t & E & bb & -> & L & G).
  - exists (d_buf t0). split; [reflexivity|]. split; [apply repeat_length|]. intros; lia.
  - intros k t Hk (bb & -> & L & G).
    destruct (order_nth ColMajor r c k Hk) as (i & j & Eo & Hi & Hj).
    rewrite (own_rdz _ _ _ _ k M i j) by (now rewrite O). cbn [bind]. rewrite HG by auto. cbn [bind with_buf d_buf].
    rewrite wr_ok by lia. cbn [bind]. eexists. split; [reflexivity|]. exists (upd bb k (Some (u i j))).
    split; [reflexivity|]. split; [now rewrite upd_length|]. intros p Hp.
    destruct (Nat.eq_dec p k) as [->|Np].
    + rewrite nth_error_upd_eq by lia. unfold US. rewrite storage_order_map, nth_error_map, Eo. reflexivity.
    + rewrite nth_error_upd_ne by auto. apply G. lia.
  - exists (with_buf t0 bb). split; [exact E|]. split; [|repeat split].
    apply mat_of_buf; try reflexivity. cbn [with_buf d_buf]. apply nth_error_ext. intros p.
    destruct (Nat.lt_ge_cases p (r * c)) as [Hp|Hp].
    + rewrite G by auto. now rewrite nth_error_map.
    + transitivity (@None (option U)); [|symmetry]; apply nth_error_None; [lia|].
      rewrite map_length, storage_length. lia.
Qed.

Lemma count_step (p : nat * nat -> bool) o r c k i j : nth_error (order o r c) k = Some (i, j) ->
  length (filter p (firstn (S k) (order o r c))) = length (filter p (firstn k (order o r c))) + if p (i, j) then 1 else 0.
Proof.
  intros E. rewrite (firstn_S_snoc _ _ _ E), filter_app, app_length. cbn [filter]. destruct (p (i, j)); reflexivity.
Qed.
Lemma count_order (p : nat -> nat -> bool) o r c :
  length (filter (fun q => p (fst q) (snd q)) (order o r c)) = count2 r c p.
Proof.
  assert (P : forall a b (l1 l2 : list (nat * nat)) (q : nat * nat -> bool), a = l1 -> b = l2 -> Permutation.Permutation a b ->
     length (filter q a) = length (filter q b)).
  { intros a b l1 l2 q _ _ H. induction H; cbn; auto; try (destruct (q x)); try (destruct (q y)); cbn; auto; congruence. }
  unfold count2. rewrite (P (order o r c) (pairs r c) _ _ _ eq_refl eq_refl).
  - unfold pairs. f_equal. apply filter_ext. now intros [? ?].
  - apply Permutation.NoDup_Permutation; [apply NoDup_order|apply NoDup_pairs|]. intros [i j].
    rewrite in_order, in_pairs. tauto.
Qed.

Lemma type_counting_ok (b : blocked F D) r c f (init : list nat) :
  blocks_are b r c f -> length init = length type_list ->
  (forall i j, i < r -> j < c -> In (dyn_ty (f i j)) type_list) ->
  exists cnt, type_counting_from (map Some init) b = Ok (map Some cnt) /\ length cnt = length type_list /\
    forall t, t < length type_list ->
      nth t cnt 0 = nth t init 0 + count2 r c (fun i j => type_index (f i j) =? t).
Proof.
  intros M L HT. unfold type_counting_from. rewrite (own_iter _ _ _ _ M). cbn [bind]. rewrite foldM_map.
  set (o := d_orient (b_mat b)).
  set (cnt := fun k t => length (filter (fun q => type_index (f (fst q) (snd q)) =? t) (firstn k (order o r c)))).
  destruct (forM_inv (fun k cn =>
      do p <- rdz (d_buf (b_mat b)) (Z.of_nat k); do t <- type_of_ptr p; do n <- rd cn t; wr cn t (n + 1))
    (fun k cn => exists l, cn = map Some l /\ length l = length type_list /\
       forall t, t < length type_list -> nth t l 0 = nth t init 0 + cnt k t) (r * c) (map Some init)) as (cn & E & l & -> & Ll & G).
  - exists init. split; [reflexivity|]. split; [exact L|]. intros t Ht. unfold cnt. cbn. lia.
  - intros k cn Hk (l & -> & Ll & G).
    destruct (order_nth o r c k Hk) as (i & j & Eo & Hi & Hj).
    rewrite (own_rdz _ _ _ _ k M i j) by (exact Eo). cbn [bind type_of_ptr deref].
    set (t := type_index (f i j)). assert (Ht : t < length type_list) by (apply get_index_lt; now apply HT).
    assert (Er : rd (map Some l) t = Ok (nth t l 0)).
    { apply rd_ok. rewrite nth_error_map, (nth_error_nth' l 0) by lia. reflexivity. }
    rewrite Er. cbn [bind]. rewrite wr_ok by (rewrite map_length; lia).
    eexists. split; [reflexivity|]. exists (upd l t (nth t l 0 + 1)). split.
    { apply nth_error_ext. intros q. rewrite nth_error_map. destruct (Nat.eq_dec q t) as [->|N].
      - rewrite !nth_error_upd_eq by (rewrite ?map_length; lia). reflexivity.
      - rewrite !nth_error_upd_ne by auto. now rewrite nth_error_map. }
    split; [now rewrite upd_length|]. intros t' Ht'. rewrite nth_upd by lia. unfold cnt.
    rewrite (count_step (fun q => type_index (f (fst q) (snd q)) =? t') o r c k i j Eo). cbn [fst snd].
    fold t. fold (cnt k t'). rewrite (Nat.eqb_sym t t').
    destruct (Nat.eqb_spec t' t) as [->|]; rewrite G by auto; lia.
  - exists l. split; [exact E|]. split; [exact Ll|]. intros t Ht. rewrite G by auto. f_equal. unfold cnt.
    rewrite firstn_all2; [apply (count_order (fun i j => type_index (f i j) =? t))|].
    rewrite <- (map_length (fun p => lin o r c (fst p) (snd p))), order_lin, seq_length. lia.
Qed.

(** Counts of all types add up to the number of elements. *)
Lemma count_partition (h : nat * nat -> nat) n (l : list (nat * nat)) : (forall p, In p l -> h p < n) ->
  list_sum (map (fun t => length (filter (fun p => h p =? t) l)) (seq 0 n)) = length l.
Proof.
  induction l as [|p l IH]; intros H.
  - cbn. generalize (seq 0 n). induction l; cbn; auto.
  - cbn [length]. rewrite <- IH by (intros q Hq; apply H; now right). clear IH.
    assert (Hp : h p < n) by (apply H; now left). clear H.
    assert (Q : forall m, list_sum (map (fun t => length (filter (fun p => h p =? t) (p :: l))) (seq 0 m)) =
      (if h p <? m then 1 else 0) + list_sum (map (fun t => length (filter (fun p => h p =? t) l)) (seq 0 m))).
    { induction m as [|m IH]; [reflexivity|]. rewrite seq_S, !map_app, !list_sum_app, IH. cbn [map list_sum fold_right plus filter].
      destruct (Nat.eqb_spec (h p) m), (Nat.ltb_spec (h p) m), (Nat.ltb_spec (h p) (S m)); cbn [length]; lia. }
    rewrite Q. destruct (Nat.ltb_spec (h p) n); lia.
Qed.
End Types.

(** ** Deviations *)
Lemma dense_cells_ok {T} (d : dense T) r c f : view d r c f -> iterable d ->
  dense_cells d = Ok (map Some (in_storage_order (d_orient d) r c f)).
Proof.
  intros V I. unfold dense_cells. rewrite iter_addrs_ok by auto. cbn [bind]. pose proof V as (Hr & Hc & _). rewrite Hr, Hc.
  rewrite storage_order_map, map_map.
  assert (G : forall l, (forall i j, In (i, j) l -> i < r /\ j < c) ->
    mapM (rdzc (d_buf d)) (map (fun p => Z.of_nat (addr (d_sh d) (fst p) (snd p))) l) = Ok (map (fun p => Some (f (fst p) (snd p))) l)).
  { induction l as [|[i j] t IH]; intros H; [reflexivity|]. cbn [map mapM fst snd].
    destruct (H i j (or_introl eq_refl)) as [Hi Hj]. pose proof (view_cell d r c f i j V Hi Hj) as E.
    unfold rdzc at 1. destruct (Z.ltb_spec (Z.of_nat (addr (d_sh d) i j)) 0); [lia|]. rewrite Nat2Z.id.
    unfold rdc. rewrite E. cbn [bind]. rewrite IH by (intros; apply H; now right). reflexivity. }
  apply G. intros i j Hin. now apply in_order in Hin.
Qed.

Section Dev.
Context {A B D : Type} (zero : D) (diff : A -> B -> D).
Lemma dev_loop_ok (acc : D -> D -> D) (xs : list A) (ys : list B) : length xs <= length ys ->
  dev_loop zero diff acc (map Some xs) (map Some ys) =
  Ok (fold_left (fun s p => acc s (diff (fst p) (snd p))) (combine xs ys) zero).
Proof.
  intros L. unfold dev_loop.
  destruct (foldM_inv (fun '(k, c) s => do x <- val (Some c); do y <- val (nth_error (map Some ys) k); Ok (acc s (diff x y)))
    (fun k s => s = fold_left (fun s p => acc s (diff (fst p) (snd p))) (firstn k (combine xs ys)) zero)
    (enum (map Some xs)) zero) as (s & E & H); [reflexivity| |].
  - intros k [k' cx] s Hk ->. apply nth_error_enum in Hk as [-> Hk]. rewrite nth_error_map in Hk.
    destruct (nth_error xs k) as [x|] eqn:Ex; [|discriminate]. injection Hk as <-. cbn [val bind].
    assert (k < length xs) by (apply nth_error_Some; congruence).
    rewrite nth_error_map. destruct (nth_error ys k) as [y|] eqn:Ey; [|apply nth_error_None in Ey; lia]. cbn [option_map val bind].
    eexists. split; [reflexivity|].
    assert (Ec : nth_error (combine xs ys) k = Some (x, y)).
    { clear - Ex Ey. revert xs ys Ex Ey. induction k; intros [|a xs] [|b ys]; cbn; try discriminate; auto. intros; congruence. }
    rewrite (firstn_S_snoc _ _ _ Ec), fold_left_app. reflexivity.
  - rewrite E, H. f_equal. unfold enum. rewrite combine_length, seq_length, map_length, Nat.min_id.
    rewrite firstn_all2; auto. rewrite combine_length. lia.
Qed.
End Dev.

Lemma combine_storage {A B} o r c (f : nat -> nat -> A) (g : nat -> nat -> B) :
  combine (in_storage_order o r c f) (in_storage_order o r c g) =
  map (fun p => (f (fst p) (snd p), g (fst p) (snd p))) (order o r c).
Proof.
  rewrite !storage_order_map. generalize (order o r c). induction l as [|p l IH]; [reflexivity|]. cbn. now rewrite IH.
Qed.

Section Dev2.
Context {F D : Type} (ar : arith F D) {SD : Scalar D} {A B : Type} (diff : A -> B -> D).

Lemma max_deviation_ok (a : dense A) (b : dense B) r c fa fb :
  d0 ar = s0 -> linear ar -> abs_pos ar ->
  view a r c fa -> view b r c fb -> iterable a -> iterable b -> d_orient a = d_orient b ->
  exists m, max_deviation (d0 ar) diff (absD ar) (ltD ar) (dense_cells a) (dense_cells b) = Ok m /\
    is_norm_max ar r c (fun i j => diff (fa i j) (fb i j)) m.
Proof.
  intros Z0 L P Va Vb Ia Ib O. unfold max_deviation.
  rewrite (dense_cells_ok a r c fa Va Ia), (dense_cells_ok b r c fb Vb Ib), O. cbn [bind].
  rewrite dev_loop_ok by (now rewrite !storage_length). eexists. split; [reflexivity|].
  rewrite combine_storage, fold_left_map'. cbn [fst snd].
  destruct (fold_max ar L (fun p : nat * nat => absD ar (diff (fa (fst p) (snd p)) (fb (fst p) (snd p)))) (order (d_orient b) r c) (d0 ar))
    as (_ & H2 & H3). cbn zeta in *. unfold maxD in *.
  apply is_max_intro; auto.
  - intros i j Hi Hj. apply (H2 (i, j)). now apply in_order.
  - destruct H3 as [H3|([i j] & Hx & H3)].
    + left. etransitivity; [exact H3|exact Z0].
    + right. apply in_order in Hx as [Hi Hj]. exists i, j. split; [exact Hi|]. split; [exact Hj|exact H3].
Qed.

Lemma rms_deviation_ok (sq root : D -> D) (divn : D -> nat -> D) (a : dense A) (b : dense B) r c fa fb :
  exact ar ->
  view a r c fa -> view b r c fb -> iterable a -> iterable b -> d_orient a = d_orient b ->
  rms_deviation (d0 ar) diff sq (addD ar) root divn (d_rows a) (d_cols a) (dense_cells a) (dense_cells b) =
    Ok (root (divn (sum2 r c (fun i j => sq (diff (fa i j) (fb i j)))) (r * c))).
Proof.
  intros X Va Vb Ia Ib O. unfold rms_deviation.
  rewrite (dense_cells_ok a r c fa Va Ia), (dense_cells_ok b r c fb Vb Ib), O. cbn [bind].
  rewrite dev_loop_ok by (now rewrite !storage_length). cbn [bind].
  pose proof Va as (-> & -> & _). do 3 f_equal.
  rewrite combine_storage, fold_left_map'. cbn [fst snd].
  rewrite (fold_lsum ar X (fun p : nat * nat => sq (diff (fa (fst p) (snd p)) (fb (fst p) (snd p))))).
  rewrite (sum2_order ar X (d_orient b)), (ex_d0 ar X). pose proof (ex_ring ar X). apply r_add0l.
Qed.
End Dev2.

(** ** Random matrices *)
Section Gen.
Context {D E : Type} (elem : bool -> D -> D) (d1 : E -> D * E) (d2 : E -> bool * E) (sf : bool).

Lemma draw_pair e : draw elem d1 d2 sf e =
  (let p := fst (pair_drawn d1 d2 sf e) in elem (fst p) (snd p), snd (pair_drawn d1 d2 sf e)).
Proof.
  unfold draw, pair_drawn. destruct sf; cbn.
  - destruct (d2 e) as [s e1]; cbn; destruct (d1 e1) as [u e2]; reflexivity.
  - destruct (d1 e) as [u e1]; cbn; destruct (d2 e1) as [s e2]; reflexivity.
Qed.
Lemma after_S k e : after d1 d2 sf (S k) e = snd (pair_drawn d1 d2 sf (after d1 d2 sf k e)).
Proof. revert e. induction k as [|k IH]; intro e; [reflexivity|]. exact (IH (snd (pair_drawn d1 d2 sf e))). Qed.

Lemma generate_ok e r c : exists m, generate_random elem d1 d2 sf e r c = Ok m /\
  is_mat m r c (fun i j => kth_value elem d1 d2 sf (i + j * r) e) /\ d_orient m = ColMajor /\ full_ok m /\ d_own m = true.
Proof.
  unfold generate_random. set (m0 := @d_new D ColMajor r c).
  assert (W0 : wf_mem m0) by apply d_new_wf.
  assert (E0 : iter_addrs m0 = Ok (map Z.of_nat (seq 0 (r * c)))).
  { unfold iter_addrs. destruct W0 as (Hs & Hb & Hl). rewrite Hs, Hb, Hl. reflexivity. }
  assert (Hlen : length (d_buf m0) = r * c) by apply repeat_length.
  rewrite E0. cbn [bind]. rewrite foldM_map.
  set (kv := fun k => kth_value elem d1 d2 sf k e).
  destruct (forM_inv (fun k '(m, e) => let '(x, e) := draw elem d1 d2 sf e in
       do b <- wrz (d_buf m) (Z.of_nat k) x; Ok (with_buf m b, e))
    (fun k st => st = (with_buf m0 (map Some (map kv (seq 0 k)) ++ skipn k (d_buf m0)), after d1 d2 sf k e))
    (r * c) (m0, e)) as (st & Es & ->).
  - destruct m0; reflexivity.
  - intros k st Hk ->. rewrite draw_pair. cbv zeta.
    change (elem (fst (fst (pair_drawn d1 d2 sf (after d1 d2 sf k e)))) (snd (fst (pair_drawn d1 d2 sf (after d1 d2 sf k e))))) with (kv k).
    rewrite <- after_S. cbn [with_buf d_buf]. rewrite wrz_nat.
    rewrite wrc_ok by (rewrite app_length, !map_length, seq_length, skipn_length; lia). cbn [bind]. eexists. split; [reflexivity|].
    assert (Hs : exists y, nth_error (d_buf m0) k = Some y).
    { destruct (nth_error (d_buf m0) k) eqn:Q; eauto. apply nth_error_None in Q. lia. }
    destruct Hs as (y & Hs).
    assert (L : length (map kv (seq 0 k)) = k) by now rewrite map_length, seq_length.
    assert (HU : upd (map Some (map kv (seq 0 k)) ++ skipn k (d_buf m0)) k (Some (kv k)) = map Some (map kv (seq 0 (S k))) ++ skipn (S k) (d_buf m0)).
    { rewrite (skipn_S_cons _ _ _ Hs), seq_S, !map_app, <- app_assoc. cbn [map app Nat.add].
      generalize (skipn (S k) (d_buf m0)) as tl. generalize (kv k) as z. revert L. generalize (map kv (seq 0 k)) as xs. clear. intros xs L z tl. subst k.
      induction xs as [|a xs IH]; [reflexivity|]. cbn. now rewrite IH. }
    rewrite HU. reflexivity.
  - match goal with |- context [foldM ?g (seq 0 (r * c)) (m0, e)] => change (foldM g (seq 0 (r * c)) (m0, e)) with (forM (r * c) g (m0, e)) end.
    rewrite Es. cbn [bind fst].
    rewrite skipn_all2 by lia. rewrite app_nil_r.
    eexists. split; [reflexivity|]. split; [|split; [reflexivity|split; reflexivity]].
    assert (WB : wf_mem (with_buf m0 (map Some (map kv (seq 0 (r * c)))))).
    { apply with_buf_wf; auto. now rewrite !map_length, seq_length. }
    split; [exact WB|]. apply view_from_cells; try (cbn; reflexivity).
    intros i j Hi Hj. rewrite own_addr_lin by exact WB.
    cbn [with_buf d_buf]. rewrite map_map, nth_error_map.
    assert (Hin : i + j * r < r * c) by nia.
    match goal with |- context [lin ?a ?b ?c0 i j] => replace (lin a b c0 i j) with (i + j * r) by (cbn; lia) end.
    rewrite (nth_error_nth' (seq 0 (r * c)) 0) by now rewrite seq_length. rewrite seq_nth by exact Hin. reflexivity.
Qed.
End Gen.
