(** C42: norms of sparse sums and of two-part matrices, for every case. *)
From Verif Require Import Base BaseLemmas Dense_Model Dense_Spec Dense_Proofs Sparse_Model Sparse_Spec Sparse_Proofs
  Sparse2_Proofs Sparse3_Proofs Mult_Model Mult_Spec Dyn_Model Dyn_Spec Dyn_Proofs Norm_Model Norm_Spec Norm_Proofs
  Check_Spec Dense_Props Sparse_Props Mult_Props Dyn_Props Norm_Props Exact_Props.

Lemma forM_run {X} (f : nat -> X -> res X) (P : nat -> X -> Prop) n : forall s s',
  forM n f s = Ok s' -> P 0 s -> (forall k x y, k < n -> P k x -> f k x = Ok y -> P (S k) y) -> P n s'.
Proof.
  unfold forM. intros s s' E H0 HS.
  assert (G : forall m a s, (forall k x y, a <= k < a + m -> P k x -> f k x = Ok y -> P (S k) y) -> P a s ->
    foldM f (seq a m) s = Ok s' -> P (a + m) s').
  { induction m as [|m IH]; intros a s1 Hst Ha Ef; cbn [seq foldM] in Ef.
    - injection Ef as <-. now rewrite Nat.add_0_r.
    - apply bind_ok in Ef as (s2 & E1 & E2). replace (a + S m) with (S a + m) by lia.
      apply (IH (S a) s2); auto.
      + intros k x y Hk. apply Hst. lia.
      + apply (Hst a s1 s2); auto. lia. }
  apply (G n 0 s); auto. intros k x y Hk. apply HS. lia.
Qed.

(** From [n] on the cells are as they were. *)
Definition untouched {T} (n : nat) (v v' : buf T) : Prop :=
  length v' = length v /\ forall q, n <= q -> nth_error v' q = nth_error v q.
Lemma untouched_wr {T} (v v' v'' : buf T) n n' x : wr v n x = Ok v' -> n < n' -> untouched n' v' v'' -> untouched n' v v''.
Proof.
  unfold wr, wrc. destruct (_ <? _); [|discriminate]. intros [= <-] Hn (L & H). split; [now rewrite L, upd_length|].
  intros q Hq. rewrite H by exact Hq. apply nth_error_upd_ne. lia.
Qed.

Lemma merge_rest {A B C} (ca : A -> C) (ub : B -> C) (op : A -> B -> C) (a : sparse A) (b : sparse B) fuel :
  forall ia ea ib eb vs ks n vs' ks' n', merge ca ub op a b fuel ia ea ib eb (vs, ks, n) = Ok (vs', ks', n') ->
    n <= n' /\ untouched n' vs vs'.
Proof.
  induction fuel as [|f IH]; intros ia ea ib eb vs ks n vs' ks' n' E; cbn [merge] in E; [discriminate|].
  destruct (negb (ia =? ea) && negb (ib =? eb)).
  - apply bind_ok in E as (ka & _ & E). apply bind_ok in E as (kb & _ & E). destruct (ka <? kb); [|destruct (kb <? ka)].
    + apply bind_ok in E as (x & _ & E). apply bind_ok in E as (v1 & E1 & E). apply bind_ok in E as (k1 & _ & E).
      apply IH in E as [Hn U]. split; [lia|]. eapply untouched_wr; [exact E1|lia|exact U].
    + apply bind_ok in E as (x & _ & E). apply bind_ok in E as (v1 & E1 & E). apply bind_ok in E as (k1 & _ & E).
      apply IH in E as [Hn U]. split; [lia|]. eapply untouched_wr; [exact E1|lia|exact U].
    + apply bind_ok in E as (x & _ & E). apply bind_ok in E as (y & _ & E). apply bind_ok in E as (v1 & E1 & E).
      apply bind_ok in E as (k1 & _ & E). apply IH in E as [Hn U]. split; [lia|]. eapply untouched_wr; [exact E1|lia|exact U].
  - destruct (negb (ia =? ea)); [|destruct (negb (ib =? eb))].
    + apply bind_ok in E as (ka & _ & E). apply bind_ok in E as (x & _ & E). apply bind_ok in E as (v1 & E1 & E).
      apply bind_ok in E as (k1 & _ & E). apply IH in E as [Hn U]. split; [lia|]. eapply untouched_wr; [exact E1|lia|exact U].
    + apply bind_ok in E as (ka & _ & E). apply bind_ok in E as (x & _ & E). apply bind_ok in E as (v1 & E1 & E).
      apply bind_ok in E as (k1 & _ & E). apply IH in E as [Hn U]. split; [lia|]. eapply untouched_wr; [exact E1|lia|exact U].
    + injection E as <- <- <-. split; [lia|]. split; auto.
Qed.

Lemma st_resize_empty {T} n : length (st_resize (@nil (option T)) n) = n /\
  forall q, q < n -> nth_error (st_resize (@nil (option T)) n) q = Some None.
Proof.
  unfold st_resize. cbn [length]. destruct (Nat.eqb_spec 0 n) as [<- |]; [split; [reflexivity|lia]|].
  split; [apply alloc_length|]. intros q Hq. unfold alloc. now apply nth_error_repeat.
Qed.

(** The arrays of a sum have rows * columns places; those behind the last offset
    were never written. *)
Lemma binop_rest {A B C} (ca : A -> C) (ub : B -> C) (op : A -> B -> C) dbg (a : sparse A) (b : sparse B) s :
  s_binop ca ub op dbg a b = Ok s -> length (s_off a) = s_cols a + 1 ->
  length (s_val s) = s_rows a * s_cols a /\ s_cols s = s_cols a /\
  exists p, rd (s_off s) (s_cols a) = Ok p /\
    forall q, p <= q -> q < s_rows a * s_cols a -> nth_error (s_val s) q = Some None.
Proof.
  intros E La. unfold s_binop in E.
  apply bind_ok in E as (u1 & _ & E). apply bind_ok in E as (u2 & _ & E).
  apply bind_ok in E as (o1 & E1 & E). apply bind_ok in E as (n & En & E).
  apply bind_ok in E as ([[[vs ks] offs] p] & E2 & E). injection E as <-. cbn [s_val s_off s_cols s_resize s_default].
  assert (Hn : n = s_cols a) by (unfold s_nlines in En; rewrite La, Nat.add_1_r in En; now injection En).
  subst n. set (N := s_rows a * s_cols a) in *.
  pose proof (forM_run _ (fun k (st : buf C * buf nat * buf nat * nat) =>
     let '(vs, ks, offs, p) := st in
     rd offs k = Ok p /\ length vs = N /\ forall q, p <= q -> q < N -> nth_error vs q = Some None) _ _ _ E2) as G.
  cbn beta iota in G. destruct G as (G1 & G2 & G3).
  - cbn [s_resize s_default s_val s_off s_key Nat.eqb] in *. split; [|split].
    + unfold wr, wrc in E1. destruct (Nat.ltb_spec 0 (length (st_resize (@nil (option nat)) (s_cols a + 1)))); [|discriminate].
      injection E1 as <-. unfold rd. now rewrite nth_error_upd_eq by assumption.
    + apply st_resize_empty.
    + intros q _ Hq. now apply st_resize_empty.
  - intros l [[[v1 k1] of1] p1] [[[v2 k2] of2] p2] Hl (I1 & I2 & I3) H.
    apply bind_ok in H as (ia & _ & H). apply bind_ok in H as (ea & _ & H).
    apply bind_ok in H as (ib & _ & H). apply bind_ok in H as (eb & _ & H).
    apply bind_ok in H as ([[v3 k3] p3] & Em & H). apply bind_ok in H as (of3 & Eo & H). injection H as <- <- <- <-.
    apply merge_rest in Em as [Hp (Lu & Hu)]. split; [|split].
    + unfold wr, wrc in Eo. destruct (Nat.ltb_spec (1 + l) (length of1)); [|discriminate]. injection Eo as <-.
      unfold rd. change (S l) with (1 + l). now rewrite nth_error_upd_eq by assumption.
    + congruence.
    + intros q Hq HN. rewrite Hu by exact Hq. apply I3; lia.
  - split; [exact G2|]. split; [reflexivity|]. exists p. split; [exact G1|exact G3].
Qed.

(** A norm reads all places. *)
Lemma norm_sparse_unwritten {F D} (ar : arith F D) nx {T} (acc : D -> T -> D) k (s : sparse T) q :
  nth_error (s_val s) q = Some None -> norm_sparse ar nx acc k s = UB UninitRead.
Proof.
  intros Hq. unfold norm_sparse.
  assert (G : forall d, foldM (fun a t => do x <- rd (s_val s) a; Ok (acc t x)) (seq 0 (length (s_val s))) d = UB UninitRead).
  { intros d. apply (foldM_fails _ (fun _ => True)); auto.
    - intros a t Ha _. apply in_seq in Ha. unfold rd. destruct (nth_error (s_val s) a) as [[x|]|] eqn:Ex; cbn [bind].
      + left. eauto.
      + right. reflexivity.
      + apply nth_error_None in Ex. lia.
    - exists q. assert (q < length (s_val s)) by (apply nth_error_Some; congruence).
      split; [apply in_seq; lia|]. intros t _. unfold rd. now rewrite Hq. }
  now rewrite G.
Qed.

Lemma grid_length r c : length (flat_map (fun i => map (fun j => (i, j)) (seq 0 c)) (seq 0 r)) = r * c.
Proof.
  assert (G : forall a, length (flat_map (fun i => map (fun j => (i, j)) (seq 0 c)) (seq a r)) = r * c).
  { induction r as [|r IH]; intros a; [reflexivity|]. cbn [seq flat_map].
    rewrite app_length, map_length, seq_length, IH. lia. }
  apply G.
Qed.
Lemma grid_in r c i j : i < r -> j < c -> In (i, j) (flat_map (fun i => map (fun j => (i, j)) (seq 0 c)) (seq 0 r)).
Proof.
  intros Hi Hj. apply in_flat_map. exists i. split; [apply in_seq; lia|]. apply in_map_iff. exists j.
  split; [reflexivity|apply in_seq; lia].
Qed.
Lemma count2_all_eq r c p : (forall i j, i < r -> j < c -> p i j = true) -> count2 r c p = r * c.
Proof.
  intros H. rewrite <- (grid_length r c). unfold count2. f_equal.
  rewrite (filter_ext_in _ (fun _ => true)).
  { induction (flat_map (fun i => map (fun j => (i, j)) (seq 0 c)) (seq 0 r)) as [|x l IH]; [reflexivity|]. cbn. now rewrite IH. }
  intros [i j] Hin. apply in_flat_map in Hin as (i' & Hi & Hin). apply in_map_iff in Hin as (j' & [= -> ->] & Hj).
  apply in_seq in Hi, Hj. apply H; lia.
Qed.
Lemma count2_lt r c p i j : i < r -> j < c -> p i j = false -> count2 r c p < r * c.
Proof.
  intros Hi Hj Hp. unfold count2. rewrite <- (grid_length r c).
  pose proof (grid_in r c i j Hi Hj) as Hin. revert Hin. generalize (flat_map (fun i => map (fun j => (i, j)) (seq 0 c)) (seq 0 r)) as l.
  assert (Hle : forall l : list (nat * nat), length (filter (fun '(i, j) => p i j) l) <= length l).
  { induction l as [|[x y] l IH]; cbn; [lia|]. destruct (p x y); cbn; lia. }
  induction l as [|[x y] l IH]; [intros []|]. intros [[= -> ->]|H]; cbn [filter length].
  - rewrite Hp. specialize (Hle l). lia.
  - specialize (IH H). destruct (p x y); cbn [length]; lia.
Qed.

(** The sum or difference of two sparse matrices has a norm (the right one, by
    [C42_norm_of_one_part]) exactly if every position is stored in one of the
    operands; otherwise asking for it reads uninitialised memory. *)
Theorem C42_sparse_sum_exact :
  forall (A B C : Type) (ca : A -> C) (ub : B -> C) (op : A -> B -> C) dbg (a : sparse A) (b : sparse B) r c fa fb,
    sp_mat a r c fa -> sp_mat b r c fb -> s_o a = ColMajor -> s_o b = ColMajor ->
    exists s, s_binop ca ub op dbg a b = Ok s /\
      ((forall i j, i < r -> j < c -> is_some (fa i j) || is_some (fb i j) = true) -> compact s) /\
      ((exists i j, i < r /\ j < c /\ fa i j = None /\ fb i j = None) ->
         forall (F D : Type) (ar : arith F D) nx acc k, norm_sparse ar nx acc k s = UB UninitRead).
Proof.
  intros A B C ca ub op dbg a b r c fa fb Ha Hb Oa Ob.
  destruct (s_binop_spec ca ub op dbg a b r c fa fb Ha Hb Oa Ob) as (s & E & O & M).
  exists s. split; [exact E|].
  assert (La : length (s_off a) = s_cols a + 1).
  { destruct Ha as ((L & _) & _). unfold s_minor in L. rewrite Oa in L. lia. }
  destruct (binop_rest ca ub op dbg a b s E La) as (Lv & Cs & p & Ep & Hp).
  pose proof Ha as (_ & Ra & Ca & _). rewrite Ra, Ca in *.
  set (st := fun i j => is_some (comb ca ub op (fa i j) (fb i j))).
  assert (Hcm : compact s <-> length (s_val s) = count2 r c st) by exact (C42_compact_if_count_matches C s r c _ M).
  rewrite Lv in Hcm.
  split.
  - intros H. apply Hcm. rewrite (count2_all_eq r c st); [reflexivity|].
    intros i j Hi Hj. specialize (H i j Hi Hj). unfold st. destruct (fa i j), (fb i j); cbn in *; congruence.
  - intros (i & j & Hi & Hj & Na & Nb) F D ar nx acc k.
    assert (Hlt : count2 r c st < r * c).
    { apply (count2_lt r c st i j Hi Hj). unfold st. now rewrite Na, Nb. }
    assert (Hne : p <> r * c).
    { intros ->. assert (Hc : compact s). { unfold compact, s_minor, s_nnz. rewrite O, Cs, Lv. exact Ep. }
      apply Hcm in Hc. lia. }
    assert (Hle : p <= r * c).
    { destruct M as ((L1 & L2 & L3 & L4 & _) & _). unfold s_minor in L4. rewrite O, Cs in L4.
      destruct c as [|c']; [lia|]. destruct (L4 c' ltac:(lia)) as (b0 & e0 & _ & Ee & He). rewrite Ep in Ee. injection Ee as <-. lia. }
    apply (norm_sparse_unwritten ar nx acc k s p). apply Hp; lia.
Qed.
Print Assumptions C42_sparse_sum_exact.

(** The hypotheses are met in both cases. *)
Definition fullS : sparse Z :=
  mkSparse ColMajor 1 2 2 [Some 5%Z; Some 6%Z] [Some 0; Some 0] [Some 0; Some 1; Some 2].
Definition fullS_f : nat -> nat -> option Z := fun i j => if i =? 0 then Some (if j =? 0 then 5%Z else 6%Z) else None.
Lemma fullS_mat : sp_mat fullS 1 2 fullS_f.
Proof.
  apply sp_mat_lines. repeat split. exists [[(0, 5%Z)]; [(0, 6%Z)]]. split; [|split; [reflexivity|split]].
  - split; [reflexivity|]. exists [], []. repeat split.
  - repeat constructor.
  - intros [|i] [|[|j]] Hi Hj; cbn in Hi, Hj; try lia; reflexivity.
Qed.
Example C42_sparse_sum_exact_nonvacuous :
  (sp_mat demoS 2 3 demoS_f /\ exists i j, i < 2 /\ j < 3 /\ demoS_f i j = None) /\
  (sp_mat fullS 1 2 fullS_f /\ forall i j, i < 1 -> j < 2 -> is_some (fullS_f i j) = true).
Proof.
  split; (split; [first [exact demoS_mat | exact fullS_mat] |]).
  - exists 1, 0. repeat split; try lia.
  - intros [|i] j Hi Hj; [reflexivity|lia].
Qed.

(** The result of [s_binop], with the values it stands for. *)
Lemma sum_norm {F D} (ar : arith F D) nx (SD : Scalar D) (NX : nexact ar nx) {A B}
    (ca : A -> D) (ub : B -> D) (op : A -> B -> D) dbg k (a : sparse A) (b : sparse B) r c fa fb g :
  k_ok ar nx k -> sp_mat a r c fa -> sp_mat b r c fb -> s_o a = ColMajor -> s_o b = ColMajor ->
  (forall i j, i < r -> j < c -> g i j = dflt (d0 ar) (comb ca ub op (fa i j) (fb i j))) ->
  exists s, s_binop ca ub op dbg a b = Ok s /\
    ((forall i j, i < r -> j < c -> is_some (fa i j) || is_some (fb i j) = true) ->
       exists v, norm_leaf ar nx k (LSd s) = Ok v /\ is_norm ar nx k r c g v) /\
    ((exists i j, i < r /\ j < c /\ fa i j = None /\ fb i j = None) -> norm_leaf ar nx k (LSd s) = UB UninitRead).
Proof.
  intros K Ha Hb Oa Ob Hg.
  destruct (C42_sparse_sum_exact A B D ca ub op dbg a b r c fa fb Ha Hb Oa Ob) as (s & E & H1 & H2).
  destruct (s_binop_spec ca ub op dbg a b r c fa fb Ha Hb Oa Ob) as (s' & E' & O & M).
  rewrite E in E'. injection E' as <-. exists s. split; [exact E|]. split.
  - intros H. apply (C42_norm_of_one_part F D ar nx SD NX k (LSd s) r c g K).
    + split; [exact O|]. eauto.
    + exact (H1 H).
  - intros H. exact (H2 H F D ar nx _ k).
Qed.

(** Both listed two-part types have a sparse part of doubles first.  Norm-one of
    such a matrix reads uninitialised memory unless the first part stores every
    position; then it is the norm of twice the first part. *)
Theorem C42_listed_norm_one_exact :
  forall (F D : Type) (ar : arith F D) (nx : nops F D) (SD : Scalar D), nexact ar nx ->
  forall dbg t1 t2 (s : sparse D) (m2 : option (leaf F D)) r c f,
    s_o s = ColMajor -> sp_mat s r c f ->
    ((forall i j, i < r -> j < c -> is_some (f i j) = true) ->
       norm_dyn ar nx NOne dbg (DM t1 t2 (Some (LSd s)) m2) =
         Ok (norm1 ar r c (fun i j => addD ar (dflt (d0 ar) (f i j)) (dflt (d0 ar) (f i j))))) /\
    ((exists i j, i < r /\ j < c /\ f i j = None) ->
       norm_dyn ar nx NOne dbg (DM t1 t2 (Some (LSd s)) m2) = UB UninitRead).
Proof.
  intros F D ar nx SD NX dbg t1 t2 s m2 r c f O M. cbn [norm_dyn deref bind bin_leaf].
  split.
  - intros H.
    destruct (sum_norm ar nx SD NX (fun v => v) (unD ar Plus) (binD ar Plus) dbg NOne s s r c f f
      (fun i j => addD ar (dflt (d0 ar) (f i j)) (dflt (d0 ar) (f i j))) I M M O O) as (q & E & H1 & _).
    { intros i j Hi Hj. specialize (H i j Hi Hj). destruct (f i j); [reflexivity|discriminate]. }
    rewrite E. cbn [rmap bind]. destruct H1 as (v & Ev & ->); [|exact Ev].
    intros i j Hi Hj. now rewrite H.
  - intros (i & j & Hi & Hj & Hn).
    destruct (sum_norm ar nx SD NX (fun v => v) (unD ar Plus) (binD ar Plus) dbg NOne s s r c f f
      (fun i j => dflt (d0 ar) (comb (fun v => v) (unD ar Plus) (binD ar Plus) (f i j) (f i j))) I M M O O) as (q & E & _ & H2); [reflexivity|].
    rewrite E. cbn [rmap bind]. apply H2. eauto 6.
Qed.
Print Assumptions C42_listed_norm_one_exact.

(** Norm-two and norm-max of a matrix in two sparse parts, the listed type whose
    sum is not dense: the norm of the sum if every position is stored in one of
    the parts, a read of uninitialised memory otherwise. *)
Theorem C42_two_sparse_parts_exact :
  forall (F D : Type) (ar : arith F D) (nx : nops F D) (SD : Scalar D), nexact ar nx ->
  forall k dbg t1 t2 (s1 : sparse D) (s2 : sparse F) r c f1 f2,
    k <> NOne -> k_ok ar nx k -> s_o s1 = ColMajor -> s_o s2 = ColMajor -> sp_mat s1 r c f1 -> sp_mat s2 r c f2 ->
    let d := DM t1 t2 (Some (LSd s1)) (Some (LSf s2)) in
    ((forall i j, i < r -> j < c -> is_some (f1 i j) || is_some (f2 i j) = true) ->
       exists v, norm_dyn ar nx k dbg d = Ok v /\
         is_norm ar nx k r c (fun i j => addD ar (dflt (d0 ar) (f1 i j)) (dflt (d0 ar) (option_map (toD ar) (f2 i j)))) v) /\
    ((exists i j, i < r /\ j < c /\ f1 i j = None /\ f2 i j = None) -> norm_dyn ar nx k dbg d = UB UninitRead).
Proof.
  intros F D ar nx SD NX k dbg t1 t2 s1 s2 r c f1 f2 K1 K O1 O2 M1 M2 d.
  set (g := fun i j => addD ar (dflt (d0 ar) (f1 i j)) (dflt (d0 ar) (option_map (toD ar) (f2 i j)))).
  destruct (sum_norm ar nx SD NX (fun v => v) (fun v => toD ar (unF ar Plus v)) (bin_df ar Plus) dbg k s1 s2 r c f1 f2 g K M1 M2 O1 O2)
    as (q & E & H1 & H2).
  { intros i j _ _. unfold g. destruct NX as [EX _ _ _ _].
    pose proof (ex_ring ar EX) as RL. cbn [unF]. unfold bin_df, binD. rewrite (ex_addD ar EX), (ex_d0 ar EX).
    destruct (f1 i j), (f2 i j); cbn [comb dflt option_map].
    - now rewrite (ex_addD ar EX).
    - now rewrite r_addC, r_add0l.
    - now rewrite r_add0l.
    - now rewrite r_add0l. }
  assert (Ed : norm_dyn ar nx k dbg d = norm_leaf ar nx k (LSd q)).
  { unfold d. destruct k; [congruence| |]; cbn [norm_dyn deref bind bin_leaf]; now rewrite E. }
  rewrite Ed. split; assumption.
Qed.
Print Assumptions C42_two_sparse_parts_exact.
