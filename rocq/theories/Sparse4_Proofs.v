(** Mixed and assigning plus / minus; transposition of sparse matrices. *)
From Verif Require Import Base BaseLemmas Dense_Model Dense_Spec Dense_Proofs Dense2_Proofs Sparse_Model Sparse_Spec Sparse_Proofs Sparse2_Proofs Sparse3_Proofs.
From Coq Require Import Sorting.Sorted Sorting.Permutation.

Lemma rmw_ok {C B} (aop : C -> B -> C) (ws : list (nat * B)) : forall (m : buf C),
  NoDup (map fst ws) -> (forall a v, In (a, v) ws -> exists x, nth_error m a = Some (Some x)) ->
  exists m', foldM (fun w m => do x <- rd m (fst w); wr m (fst w) (aop x (snd w))) ws m = Ok m' /\
    length m' = length m /\
    (forall a v x, In (a, v) ws -> nth_error m a = Some (Some x) -> nth_error m' a = Some (Some (aop x v))) /\
    (forall a, ~ In a (map fst ws) -> nth_error m' a = nth_error m a).
Proof.
  induction ws as [|[a0 v0] ws IH]; intros m HN Hin.
  - exists m. simpl. repeat split; auto. contradiction.
  - simpl in HN. inversion HN as [|? ? Hni HN']; subst.
    destruct (Hin a0 v0 (or_introl eq_refl)) as (x0 & E0).
    assert (Hlt : a0 < length m) by (apply nth_error_Some; congruence).
    cbn [foldM fst snd]. rewrite (proj2 (rd_ok m a0 x0) E0). cbn [bind]. rewrite wr_ok by auto. cbn [bind].
    destruct (IH (upd m a0 (Some (aop x0 v0))) HN') as (m' & E & HL & H1 & H2).
    { intros a v Ha. rewrite nth_error_upd_ne; [apply (Hin a v); now right|].
      intros <-. apply Hni. apply in_map_iff. exists (a0, v); auto. }
    exists m'. split; auto. rewrite upd_length in HL. split; auto. split.
    + intros a v x [Heq|Ha] Hx.
      * inversion Heq; subst. rewrite H2 by auto. rewrite nth_error_upd_eq by auto. congruence.
      * apply H1; auto. rewrite nth_error_upd_ne; auto. intros <-. apply Hni. apply in_map_iff. exists (a0, v); auto.
    + intros a Ha. simpl in Ha. rewrite H2 by tauto. apply nth_error_upd_ne. tauto.
Qed.

(** Facts about the entries of a column-major sparse matrix. *)
Lemma col_entries {T} (s : sparse T) r c f : sp_mat s r c f -> s_o s = ColMajor ->
  exists L, repr s L /\ length L = c /\ lines_ok r L /\
    (forall l k v, In (l, k, v) (entries L) <-> (l < c /\ k < r /\ f k l = Some v)) /\
    NoDup (map (fun e => (fst (fst e), snd (fst e))) (entries L)).
Proof.
  intros HM Ho. apply sp_mat_lines in HM as (Hr & Hc & _ & L & HR & HL & HO & Hd).
  assert (Mi : s_minor s = c) by (unfold s_minor; now rewrite Ho).
  assert (Ma : s_major s = r) by (unfold s_major; now rewrite Ho).
  rewrite Mi in HL. rewrite Ma in HO. exists L. split; auto. split; auto. split; auto.
  split; [|eapply entries_keys_nodup; eauto].
  assert (Hf : forall l k, l < c -> k < r -> f k l = lk k (nth l L [])).
  { intros l k Hl Hk. rewrite Hd by lia. unfold line_of, key_of. now rewrite Ho. }
  intros l k v. rewrite in_entries. split.
  - intros (line & E & Hin).
    assert (Hl : l < c) by (rewrite <- HL; apply nth_error_Some; congruence).
    assert (Hok : line_ok r line) by (eapply Forall_forall in HO; [exact HO|]; eapply nth_error_In; eauto).
    assert (Hk : k < r).
    { destruct Hok as (_ & HF). eapply Forall_forall in HF; [exact HF|]. apply in_map_iff. exists (k, v); auto. }
    split; auto. split; auto. rewrite Hf by auto. rewrite (nth_error_nth L l [] E).
    apply lk_In_iff; auto. apply SSorted_NoDup, Hok.
  - intros (Hl & Hk & Hfv). rewrite Hf in Hfv by auto. exists (nth l L []). split; [apply nth_error_nth'; lia|].
    now apply lk_In.
Qed.

(** The read-modify-write loop over the entries of a sparse matrix. *)
Lemma rmw_entries {B C} (aop : C -> B -> C) (b : sparse B) r c fb (d : dense C) fa (ad : nat -> nat -> nat) :
  sp_mat b r c fb -> s_o b = ColMajor -> view d r c fa -> sh_ok (d_sh d) (length (d_buf d)) ->
  (forall l k, l < c -> k < r -> ad l k = addr (d_sh d) k l) ->
  exists L m, repr b L /\ length L = c /\
    foldM (fun '(l, k, v) m => do x <- rd m (ad l k); wr m (ad l k) (aop x v)) (entries L) (d_buf d) = Ok m /\
    length m = length (d_buf d) /\
    (forall i j, i < r -> j < c -> nth_error m (addr (d_sh d) i j) =
       Some (Some (match fb i j with Some y => aop (fa i j) y | None => fa i j end))) /\
    (forall a, (forall i j, i < r -> j < c -> a <> addr (d_sh d) i j) -> nth_error m a = nth_error (d_buf d) a).
Proof.
  intros Hb Ob Hv Hok Had. pose proof Hv as (Hr & Hc & _).
  destruct (col_entries b r c fb Hb Ob) as (L & HR & HL & HO & Hent & HND).
  exists L.
  destruct (rmw_ok aop (map (fun e : nat * nat * B => (ad (fst (fst e)) (snd (fst e)), snd e)) (entries L)) (d_buf d))
    as (m & E & Hlen & H1 & H2).
  - rewrite map_map. simpl. 
    rewrite <- (map_map (fun e : nat * nat * B => (fst (fst e), snd (fst e))) (fun p => ad (fst p) (snd p))).
    apply NoDup_map_inj; [exact HND|].
    intros [l k] [l' k'] I1 I2 EE.
    apply in_map_iff in I1 as ([[l1 k1] v1] & E1 & I1). apply in_map_iff in I2 as ([[l2 k2] v2] & E2 & I2).
    simpl in E1, E2. injection E1 as <- <-. injection E2 as <- <-. simpl in EE.
    apply Hent in I1 as (A1 & A2 & _). apply Hent in I2 as (B1 & B2 & _). rewrite !Had in EE by auto.
    destruct (addr_inj (d_sh d) _ k1 l1 k2 l2 Hok) as (-> & ->); auto; unfold d_rows, d_cols in *; lia.
  - intros a v Hin. apply in_map_iff in Hin as ([[l k] v'] & EE & Hin). simpl in EE. injection EE as <- <-.
    apply Hent in Hin as (A1 & A2 & _). rewrite Had by auto. exists (fa k l). now apply (view_cell d r c fa).
  - exists m. split; auto. split; auto. split.
    { rewrite <- E. rewrite foldM_map. apply foldM_ext. intros [[l k] v] m' _. reflexivity. }
    split; auto. split.
    + intros i j Hi Hj. destruct (fb i j) as [y|] eqn:Ef.
      * apply H1 with (v := y); [|now apply (view_cell d r c fa)].
        apply in_map_iff. exists (j, i, y). simpl. rewrite Had by auto. split; auto. apply Hent. auto.
      * rewrite H2; [now apply (view_cell d r c fa)|]. intros Hin. rewrite map_map in Hin.
        apply in_map_iff in Hin as ([[l k] v] & EE & Hin). simpl in EE. apply Hent in Hin as (A1 & A2 & A3).
        rewrite Had in EE by auto.
        destruct (addr_inj (d_sh d) _ k l i j Hok) as (-> & ->); auto; unfold d_rows, d_cols in *; try lia. congruence.
    + intros a Ha. apply H2. intros Hin. rewrite map_map in Hin.
      apply in_map_iff in Hin as ([[l k] v] & EE & Hin). simpl in EE. apply Hent in Hin as (A1 & A2 & A3).
      rewrite Had in EE by auto. apply (Ha k l A2 A1). auto.
Qed.

Lemma ds_binop_spec {A B C} (cv : A -> C) (aop : C -> B -> C) dbg (a : dense A) (b : sparse B) r c fa fb :
  is_mat a r c fa -> sp_mat b r c fb -> d_orient a = ColMajor -> s_o b = ColMajor ->
  exists d, ds_binop cv aop dbg a b = Ok d /\
    is_mat d r c (fun i j => match fb i j with Some y => aop (cv (fa i j)) y | None => cv (fa i j) end) /\
    d_orient d = ColMajor /\ full_ok d /\ d_own d = true.
Proof.
  intros Ha Hb Oa Ob. pose proof Ha as [_ (Ra & Ca & _)].
  pose proof Hb as (_ & Rb & Cb & _).
  unfold ds_binop, cassert. rewrite Ra, Rb, Ca, Cb, !Nat.eqb_refl, !andb_false_r. cbn [bind].
  destruct (conv_same_spec cv a r c fa Ha) as ((Wc & Vc) & Oc & Fc & Nc).
  set (c0 := d_conv_same cv a) in *. rewrite Oa in Oc.
  destruct (rmw_entries aop b r c fb c0 (fun i j => cv (fa i j)) (fun l k => l * d_rows c0 + k) Hb Ob Vc (wf_sh_ok _ Wc))
    as (L & m & HR & HL & E & Hlen & H1 & _).
  { intros l k Hl Hk. rewrite own_addr_lin by auto. rewrite Oc. simpl. lia. }
  rewrite (repr_nlines b L HR). cbn [bind].
  rewrite (lines_fold b L
     (fun l p m => do k <- rd (s_key b) p; do y <- rd (s_val b) p; do x <- rd m (l * d_rows c0 + k);
                   wr m (l * d_rows c0 + k) (aop x y))
     (fun l k v m => do x <- rd m (l * d_rows c0 + k); wr m (l * d_rows c0 + k) (aop x v))); auto.
  2:{ intros l p k v m' E1 E2. rewrite E1. cbn [bind]. rewrite E2. reflexivity. }
  rewrite E. cbn [bind]. eexists; split; [reflexivity|].
  split; [split; [now apply with_buf_wf|]|auto].
  apply view_from_cells; [apply Vc|apply Vc|]. intros i j Hi Hj. now apply H1.
Qed.

(** dense op= sparse through operator(): any column-major or row-major matrix, or a window. *)
Lemma ds_assign_spec {A B} (aop : A -> B -> A) dbg (a : dense A) (b : sparse B) r c fa fb :
  view a r c fa -> sh_ok (d_sh a) (length (d_buf a)) -> sp_mat b r c fb -> s_o b = ColMajor ->
  exists m, ds_assign_op aop dbg a b = Ok (with_buf a m) /\ length m = length (d_buf a) /\
    (forall i j, i < r -> j < c -> nth_error m (addr (d_sh a) i j) =
       Some (Some (match fb i j with Some y => aop (fa i j) y | None => fa i j end))) /\
    (forall p, (forall i j, i < r -> j < c -> p <> addr (d_sh a) i j) -> nth_error m p = nth_error (d_buf a) p).
Proof.
  intros Hv Hok Hb Ob. pose proof Hv as (Ra & Ca & _). pose proof Hb as (_ & Rb & Cb & _).
  unfold ds_assign_op, cassert. rewrite Ra, Rb, Ca, Cb, !Nat.eqb_refl, !andb_false_r. cbn [bind].
  destruct (rmw_entries aop b r c fb a fa (fun l k => addr (d_sh a) k l) Hb Ob Hv Hok)
    as (L & m & HR & HL & E & Hlen & H1 & H2); auto.
  exists m. split; auto.
  rewrite (repr_nlines b L HR). cbn [bind].
  rewrite (lines_fold b L
     (fun l p d => do k <- rd (s_key b) p; do y <- rd (s_val b) p; do x <- dget dbg d k l; dset dbg d k l (aop x y))
     (fun l k v d => do x <- dget dbg d k l; dset dbg d k l (aop x v))); auto.
  2:{ intros l p k v m' E1 E2. rewrite E1. cbn [bind]. rewrite E2. reflexivity. }
  destruct (col_entries b r c fb Hb Ob) as (L' & HR' & HL' & HO' & Hent & _).
  assert (L' = L).
  { (* both represent b *)
    clear -HR HR' HL HL'. pose proof HR as (Ho & _). pose proof HR' as (Ho' & _).
    apply nth_error_ext. intros l. destruct (Nat.lt_ge_cases l c) as [Hl|Hl].
    2:{ rewrite (proj2 (nth_error_None L l)), (proj2 (nth_error_None L' l)) by lia. reflexivity. }
    destruct (nth_error L l) as [x|] eqn:E; [|apply nth_error_None in E; lia].
    destruct (nth_error L' l) as [y|] eqn:E'; [|apply nth_error_None in E'; lia].
    f_equal. pose proof (repr_off b L HR l ltac:(lia)) as A1. pose proof (repr_off b L' HR' l ltac:(lia)) as A2.
    pose proof (repr_off b L HR (S l) ltac:(lia)) as B1. pose proof (repr_off b L' HR' (S l) ltac:(lia)) as B2.
    rewrite (start_S L l x E) in B1. rewrite (start_S L' l y E') in B2.
    assert (Es : start L l = start L' l) by congruence.
    assert (El : length x = length y) by (assert (start L l + length x = start L' l + length y) by congruence; lia).
    apply nth_error_ext. intros q. destruct (nth_error x q) as [[k v]|] eqn:Ex.
    - destruct (nth_error y q) as [[k' v']|] eqn:Ey.
      2:{ apply nth_error_None in Ey. assert (q < length x) by (apply nth_error_Some; congruence). lia. }
      pose proof (repr_key b L HR l x q k v E Ex). pose proof (repr_val b L HR l x q k v E Ex).
      pose proof (repr_key b L' HR' l y q k' v' E' Ey). pose proof (repr_val b L' HR' l y q k' v' E' Ey).
      rewrite Es in *. congruence.
    - apply nth_error_None. apply nth_error_None in Ex. lia. }
  subst L'.
  assert (G : forall es, (forall l k v, In (l, k, v) es -> l < c /\ k < r) ->
    forall d : dense A, d_sh d = d_sh a ->
    foldM (fun '(l, k, v) d => do x <- dget dbg d k l; dset dbg d k l (aop x v)) es d =
    (do m <- foldM (fun '(l, k, v) m => do x <- rd m (addr (d_sh a) k l); wr m (addr (d_sh a) k l) (aop x v)) es (d_buf d);
     Ok (with_buf d m))).
  { induction es as [|[[l k] v] es IH]; intros Hin d Hsh; cbn [foldM bind].
    - destruct d; reflexivity.
    - destruct (Hin l k v (or_introl eq_refl)) as (Hl & Hk).
      rewrite dget_in by (unfold d_rows, d_cols in *; rewrite Hsh; lia). rewrite Hsh.
      destruct (rd (d_buf d) (addr (d_sh a) k l)) as [x| | | |]; cbn [bind]; auto.
      rewrite dset_in by (unfold d_rows, d_cols in *; rewrite Hsh; lia). rewrite Hsh.
      destruct (wr (d_buf d) (addr (d_sh a) k l) (aop x v)) as [m'| | | |]; cbn [bind]; auto.
      rewrite IH; auto. intros l' k' v' H'. apply (Hin l' k' v'). now right. }
  rewrite G; auto.
  - rewrite E. reflexivity.
  - intros l k v Hin. apply Hent in Hin. tauto.
Qed.

(** dense op= dense in storage order. *)
Lemma d_assign_spec {A B} (op : A -> B -> A) (a : dense A) (b : dense B) r c fa fb :
  view a r c fa -> sh_ok (d_sh a) (length (d_buf a)) -> iterable a ->
  view b r c fb -> iterable b -> d_orient a = d_orient b ->
  exists m, d_assign_op op a b = Ok (with_buf a m) /\ length m = length (d_buf a) /\
    (forall i j, i < r -> j < c -> nth_error m (addr (d_sh a) i j) = Some (Some (op (fa i j) (fb i j)))) /\
    (forall p, (forall i j, i < r -> j < c -> p <> addr (d_sh a) i j) -> nth_error m p = nth_error (d_buf a) p).
Proof.
  intros Va Hok Ia Vb Ib Ho. pose proof Va as (Ra & Ca & _). pose proof Vb as (Rb & Cb & _).
  unfold d_assign_op. rewrite (iter_addrs_ok a Ia), (iter_addrs_ok b Ib). cbn [bind].
  rewrite Ra, Ca, Rb, Cb, <- Ho.
  set (ord := order (d_orient a) r c).
  destruct (rmw_ok op (map (fun p => (addr (d_sh a) (fst p) (snd p), fb (fst p) (snd p))) ord) (d_buf a))
    as (m & E & Hlen & H1 & H2).
  - rewrite map_map. simpl. apply NoDup_map_inj; [apply NoDup_order|].
    intros [i j] [i' j'] I1 I2 EE. apply in_order in I1, I2. simpl in EE.
    destruct (addr_inj (d_sh a) _ i j i' j' Hok) as (-> & ->); auto; unfold d_rows, d_cols in *; lia.
  - intros p v Hin. apply in_map_iff in Hin as ([i j] & EE & Hin). injection EE as <- <-. apply in_order in Hin.
    exists (fa i j). apply (view_cell a r c fa); tauto.
  - exists m. split; [|split; auto; split].
    + assert (G : forall l pre (d : dense A), ord = pre ++ l ->
        foldM (fun '(k, p) d =>
          match nth_error (map (fun p => Z.of_nat (addr (d_sh b) (fst p) (snd p))) ord) k with
          | None => UB OOBRead
          | Some q =>
              do x <- rdz (d_buf d) p;
              do y <- rdz (d_buf b) q;
              do m <- wrz (d_buf d) p (op x y);
              Ok (with_buf d m)
          end) (combine (seq (length pre) (length l)) (map (fun p => Z.of_nat (addr (d_sh a) (fst p) (snd p))) l)) d
        = do m <- foldM (fun w m => do x <- rd m (fst w); wr m (fst w) (op x (snd w)))
               (map (fun p => (addr (d_sh a) (fst p) (snd p), fb (fst p) (snd p))) l) (d_buf d); Ok (with_buf d m)).
      { induction l as [|[i j] l IH]; intros pre d Hpre.
        - simpl. destruct d; reflexivity.
        - cbn [length seq map combine foldM fst snd].
          replace (nth_error (map (fun p => Z.of_nat (addr (d_sh b) (fst p) (snd p))) ord) (length pre))
            with (Some (Z.of_nat (addr (d_sh b) i j))).
          2:{ rewrite nth_error_map, Hpre, nth_error_app2, Nat.sub_diag by lia. reflexivity. }
          rewrite !rdz_nat.
          assert (Hij : i < r /\ j < c) by (apply (in_order (d_orient a)); fold ord; rewrite Hpre; apply in_or_app; right; now left).
          pose proof (view_cell b r c fb i j Vb (proj1 Hij) (proj2 Hij)) as Eb. apply rd_ok in Eb.
          destruct (rd (d_buf d) (addr (d_sh a) i j)) as [x| | | |]; cbn [bind]; auto.
          rewrite Eb. cbn [bind]. rewrite wrz_nat. change (wrc (d_buf d) (addr (d_sh a) i j) (Some (op x (fb i j))))
             with (wr (d_buf d) (addr (d_sh a) i j) (op x (fb i j))).
          destruct (wr (d_buf d) (addr (d_sh a) i j) (op x (fb i j))) as [m'| | | |]; cbn [bind]; auto.
          specialize (IH (pre ++ [(i, j)]) (with_buf d m')). rewrite app_length in IH. simpl in IH.
          rewrite Nat.add_1_r in IH. apply IH. rewrite <- app_assoc. exact Hpre. }
      unfold enum. rewrite map_length. specialize (G ord [] a eq_refl). simpl in G. rewrite G, E. reflexivity.
    + intros i j Hi Hj. apply H1; [|now apply (view_cell a r c fa)].
      apply in_map_iff. exists (i, j). split; auto. now apply in_order.
    + intros p Hp. apply H2. intros Hin. rewrite map_map in Hin. simpl in Hin.
      apply in_map_iff in Hin as ([i j] & EE & Hin). apply in_order in Hin. simpl in EE.
      apply (Hp i j); tauto || auto.
Qed.

(** a op= a. *)
Lemma d_assign_self {A} (op : A -> A -> A) (a : dense A) r c fa :
  view a r c fa -> sh_ok (d_sh a) (length (d_buf a)) -> iterable a ->
  exists m, d_assign_op_shared op a a = Ok m /\ length m = length (d_buf a) /\
    (forall i j, i < r -> j < c -> nth_error m (addr (d_sh a) i j) = Some (Some (op (fa i j) (fa i j)))) /\
    (forall p, (forall i j, i < r -> j < c -> p <> addr (d_sh a) i j) -> nth_error m p = nth_error (d_buf a) p).
Proof.
  intros Va Hok Ia. pose proof Va as (Ra & Ca & _).
  unfold d_assign_op_shared. rewrite (iter_addrs_ok a Ia). cbn [bind]. rewrite Ra, Ca.
  set (ord := order (d_orient a) r c).
  destruct (rmw_ok (fun x (_ : unit) => op x x) (map (fun p => (addr (d_sh a) (fst p) (snd p), tt)) ord) (d_buf a))
    as (m & E & Hlen & H1 & H2).
  - rewrite map_map. simpl. apply NoDup_map_inj; [apply NoDup_order|].
    intros [i j] [i' j'] I1 I2 EE. apply in_order in I1, I2. simpl in EE.
    destruct (addr_inj (d_sh a) _ i j i' j' Hok) as (-> & ->); auto; unfold d_rows, d_cols in *; lia.
  - intros p v Hin. apply in_map_iff in Hin as ([i j] & EE & Hin). injection EE as <- <-. apply in_order in Hin.
    exists (fa i j). apply (view_cell a r c fa); tauto.
  - exists m. split; [|split; auto; split].
    + assert (G : forall l pre (m : buf A), ord = pre ++ l ->
        foldM (fun '(k, p) m =>
          match nth_error (map (fun p => Z.of_nat (addr (d_sh a) (fst p) (snd p))) ord) k with
          | None => UB OOBRead
          | Some q =>
              do x <- rdz m p;
              do y <- rdz m q;
              wrz m p (op x y)
          end) (combine (seq (length pre) (length l)) (map (fun p => Z.of_nat (addr (d_sh a) (fst p) (snd p))) l)) m
        = foldM (fun w m => do x <- rd m (fst w); wr m (fst w) (op x x))
               (map (fun p => (addr (d_sh a) (fst p) (snd p), tt)) l) m).
      { induction l as [|[i j] l IH]; intros pre d Hpre; [reflexivity|].
        cbn [length seq map combine foldM fst snd].
        replace (nth_error (map (fun p => Z.of_nat (addr (d_sh a) (fst p) (snd p))) ord) (length pre))
            with (Some (Z.of_nat (addr (d_sh a) i j))).
        2:{ rewrite nth_error_map, Hpre, nth_error_app2, Nat.sub_diag by lia. reflexivity. }
        rewrite !rdz_nat.
        destruct (rd d (addr (d_sh a) i j)) as [x| | | |]; cbn [bind]; auto.
        rewrite wrz_nat. change (wrc d (addr (d_sh a) i j) (Some (op x x))) with (wr d (addr (d_sh a) i j) (op x x)).
        destruct (wr d (addr (d_sh a) i j) (op x x)) as [m'| | | |]; cbn [bind]; auto.
        specialize (IH (pre ++ [(i, j)]) m'). rewrite app_length in IH. simpl in IH.
        rewrite Nat.add_1_r in IH. apply IH. rewrite <- app_assoc. exact Hpre. }
      unfold enum. rewrite map_length. specialize (G ord [] (d_buf a) eq_refl). simpl in G. rewrite G. exact E.
    + intros i j Hi Hj. apply (H1 _ tt); [|now apply (view_cell a r c fa)].
      apply in_map_iff. exists (i, j). split; auto. now apply in_order.
    + intros p Hp. apply H2. intros Hin. rewrite map_map in Hin. simpl in Hin.
      apply in_map_iff in Hin as ([i j] & EE & Hin). apply in_order in Hin. simpl in EE.
      apply (Hp i j); tauto || auto.
Qed.
