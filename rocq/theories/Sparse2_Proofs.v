(** Conversions between dense and sparse matrices. *)
From Verif Require Import Base BaseLemmas Dense_Model Dense_Spec Dense_Proofs Dense2_Proofs Sparse_Model Sparse_Spec Sparse_Proofs.
From Coq Require Import Sorting.Sorted Sorting.Permutation.

(** ** Appending to an array *)
Definition filled {A T} (h : A -> T) (E : list A) (b : buf T) (N : nat) : Prop :=
  length b = N /\ exists tl, b = map (fun e => Some (h e)) E ++ tl.

Lemma filled_nil {A T} (h : A -> T) (b : buf T) : filled h [] b (length b).
Proof. split; auto. exists b. reflexivity. Qed.

Lemma upd_app2 {A} (a b : list A) i v : length a <= i -> upd (a ++ b) i v = a ++ upd b (i - length a) v.
Proof.
  revert i; induction a as [|x t IH]; intros i Hi; simpl in *; [now rewrite Nat.sub_0_r|].
  destruct i as [|i]; [lia|]. rewrite IH by lia. reflexivity.
Qed.

Lemma filled_push {A T} (h : A -> T) E b N e : filled h E b N -> length E < N ->
  exists b', wr b (length E) (h e) = Ok b' /\ filled h (E ++ [e]) b' N.
Proof.
  intros (HN & tl & ->) HE. rewrite app_length, map_length in HN.
  destruct tl as [|x tl]; simpl in HN; [lia|].
  rewrite wr_ok by (rewrite app_length, map_length; simpl; lia).
  eexists; split; [reflexivity|]. split.
  - rewrite upd_length, app_length, map_length. simpl. lia.
  - exists tl. rewrite upd_app2 by (rewrite map_length; lia). rewrite map_length, Nat.sub_diag.
    simpl. rewrite map_app, <- app_assoc. reflexivity.
Qed.

Lemma filled_le {A T} (h : A -> T) E b N : filled h E b N -> length E <= N.
Proof. intros (HN & tl & ->). rewrite app_length, map_length in HN. lia. Qed.

Lemma repr_intro {T} (s : sparse T) L : 
  s_off s = map Some (psum 0 L) -> length (s_key s) = length (s_val s) ->
  (exists N, filled snd (concat L) (s_val s) N) -> (exists N, filled fst (concat L) (s_key s) N) -> repr s L.
Proof.
  intros Ho Hl (N & _ & tv & Hv) (N' & _ & tk & Hk). split; auto. exists tv, tk. split; auto. split; auto.
  rewrite Hk, Hv, !app_length, !map_length in Hl. lia.
Qed.

(** ** counting *)
Lemma filter_length_perm {A} (p : A -> bool) l l' : Permutation l l' ->
  length (filter p l) = length (filter p l').
Proof.
  induction 1 as [|x l l' _ IH|x y l|l l' l'' _ IH1 _ IH2]; simpl; auto.
  - destruct (p x); simpl; auto.
  - destruct (p x), (p y); simpl; auto.
  - congruence.
Qed.

Lemma order_perm o o' r c : Permutation (order o r c) (order o' r c).
Proof.
  apply NoDup_Permutation; try apply NoDup_order. intros [i j]. rewrite !in_order. tauto.
Qed.

Lemma count2_order o r c p : count2 r c p = length (filter (fun q => p (fst q) (snd q)) (order o r c)).
Proof.
  unfold count2. change (flat_map _ (seq 0 r)) with (order RowMajor r c).
  rewrite (filter_length_perm _ _ _ (order_perm RowMajor o r c)).
  f_equal. apply filter_ext. intros [i j]. reflexivity.
Qed.

Lemma count2_swap r c p : count2 c r (fun j i => p i j) = count2 r c p.
Proof.
  rewrite (count2_order ColMajor r c p), (count2_order RowMajor c r). simpl.
  generalize (pairs c r) as l. induction l as [|[j i] t IH]; simpl; auto.
  destruct (p i j); simpl; auto.
Qed.

Lemma d_count_spec {T} (chk : T -> bool) (d : dense T) r c f :
  view d r c f -> iterable d -> d_count chk d = Ok (count2 r c (fun i j => chk (f i j))).
Proof.
  intros Hv Hi. unfold d_count. rewrite iter_addrs_ok by auto. cbn [bind]. rewrite foldM_map.
  rewrite (count2_order (d_orient d)). pose proof Hv as (Hr & Hc & _). rewrite Hr, Hc.
  assert (G : forall l n, (forall i j, In (i, j) l -> i < r /\ j < c) ->
    foldM (fun p n => do v <- rdz (d_buf d) (Z.of_nat (addr (d_sh d) (fst p) (snd p))); Ok (if chk v then S n else n)) l n
    = Ok (n + length (filter (fun q => chk (f (fst q) (snd q))) l))).
  { induction l as [|[i j] t IH]; intros n Hin; simpl; [f_equal; lia|].
    destruct (Hin i j (or_introl eq_refl)) as (Hi' & Hj').
    rewrite rdz_nat. pose proof (view_cell d r c f i j Hv Hi' Hj') as E. apply rd_ok in E. rewrite E. simpl.
    rewrite IH by (intros; apply Hin; now right). f_equal. destruct (chk (f i j)); simpl; lia. }
  rewrite G; auto. intros i j Hin. now apply in_order in Hin.
Qed.

(** ** dense -> sparse *)
Section FromDense.
Context {T U : Type} (cv : T -> U) (chk : T -> bool) (g : nat -> nat -> T) (A : nat -> nat -> nat) (buf0 : buf T).
Context (maj : nat).

Definition mkl (l : nat) : list (nat * U) :=
  flat_map (fun k => if chk (g l k) then [(k, cv (g l k))] else []) (seq 0 maj).

Lemma mkl_gen_sorted l s n :
  let x := flat_map (fun k => if chk (g l k) then [(k, cv (g l k))] else []) (seq s n) in
  StronglySorted lt (map fst x) /\ Forall (fun k => s <= k < s + n) (map fst x).
Proof.
  revert s; induction n as [|n IH]; intros s; simpl; [split; constructor|].
  destruct (IH (S s)) as (IH1 & IH2).
  assert (IH2' : Forall (fun k => s <= k < s + S n)
     (map fst (flat_map (fun k => if chk (g l k) then [(k, cv (g l k))] else []) (seq (S s) n)))).
  { eapply Forall_impl; [|exact IH2]. intros; simpl in *; lia. }
  destruct (chk (g l s)); simpl; [|split; auto].
  split; constructor; auto; [|lia].
  eapply Forall_impl; [|exact IH2]. intros; simpl in *; lia.
Qed.

Lemma mkl_ok l : line_ok maj (mkl l).
Proof.
  destruct (mkl_gen_sorted l 0 maj) as (H1 & H2). split; [exact H1|].
  eapply Forall_impl; [|exact H2]. intros; simpl in *; lia.
Qed.

Lemma mkl_lk l k : k < maj -> lk k (mkl l) = if chk (g l k) then Some (cv (g l k)) else None.
Proof.
  intros Hk. unfold mkl.
  assert (G : forall n s, s <= k < s + n ->
    lk k (flat_map (fun k => if chk (g l k) then [(k, cv (g l k))] else []) (seq s n))
    = if chk (g l k) then Some (cv (g l k)) else None).
  { induction n as [|n IH]; intros s Hs; [lia|]. cbn [seq flat_map]. rewrite lk_app.
    destruct (Nat.eq_dec s k) as [->|Hne].
    - destruct (chk (g l k)) eqn:E; [now rewrite lk_cons, Nat.eqb_refl|]. simpl.
      apply lk_None. intros Hin.
      destruct (mkl_gen_sorted l (S k) n) as (_ & HF). eapply Forall_forall in HF; [|exact Hin]. lia.
    - replace (lk k (if chk (g l s) then [(s, cv (g l s))] else [])) with (@None U).
      2:{ destruct (chk (g l s)); [|reflexivity]. rewrite lk_cons. destruct (Nat.eqb_spec s k); [lia|reflexivity]. }
      apply IH. lia. }
  apply G. lia.
Qed.

Lemma mkl_length l : length (mkl l) = length (filter (fun k => chk (g l k)) (seq 0 maj)).
Proof.
  unfold mkl. generalize (seq 0 maj) as ks. induction ks as [|k t IH]; simpl; auto.
  destruct (chk (g l k)); simpl; auto.
Qed.

Lemma mkl_total n : length (concat (map mkl (seq 0 n))) = count2 n maj (fun l k => chk (g l k)).
Proof.
  unfold count2. generalize (seq 0 n) as ls. induction ls as [|l t IH]; simpl; auto.
  rewrite app_length, filter_app, app_length, IH, mkl_length. f_equal.
  generalize (seq 0 maj) as ks. induction ks as [|k ks IHk]; simpl; auto.
  destruct (chk (g l k)); simpl; auto.
Qed.

(** One line. *)
Lemma line_emit l N E vs ks :
  (forall k, k < maj -> rd buf0 (A l k) = Ok (g l k)) ->
  filled snd E vs N -> filled fst E ks N -> length E + length (mkl l) <= N ->
  exists vs' ks',
    foldM (fun '(k, a) '(vs, ks, n) =>
          do v <- rd buf0 a;
          if chk v then
            do vs <- wr vs n (cv v);
            do ks <- wr ks n k;
            Ok (vs, ks, S n)
          else Ok (vs, ks, n)) (enum (map (A l) (seq 0 maj))) (vs, ks, length E)
    = Ok (vs', ks', length (E ++ mkl l)) /\
    filled snd (E ++ mkl l) vs' N /\ filled fst (E ++ mkl l) ks' N.
Proof.
  intros Hrd Hv Hk HN. rewrite enum_map_seq, foldM_map. unfold mkl in *.
  assert (Hb : forall k, In k (seq 0 maj) -> k < maj) by (intros k Hk'; apply in_seq in Hk'; lia).
  revert Hb HN. revert E vs ks Hv Hk. generalize (seq 0 maj) as kl. induction kl as [|k t IH]; intros E vs ks Hv Hk Hb HN.
  - exists vs, ks. simpl. rewrite app_nil_r. auto.
  - cbn [foldM flat_map]. rewrite Hrd by (apply Hb; now left). cbn [bind].
    cbn [flat_map] in HN. rewrite app_length in HN.
    destruct (chk (g l k)) eqn:Ec; simpl in HN.
    + destruct (filled_push snd E vs N (k, cv (g l k)) Hv) as (vs1 & Ev & Hv1); [lia|].
      destruct (filled_push fst E ks N (k, cv (g l k)) Hk) as (ks1 & Ek & Hk1); [lia|].
      cbn [fst snd] in Ev, Ek. rewrite Ev. cbn [bind]. rewrite Ek. cbn [bind].
      destruct (IH (E ++ [(k, cv (g l k))]) vs1 ks1 Hv1 Hk1) as (vs' & ks' & EE & H1 & H2).
      { intros k' Hk'; apply Hb; now right. }
      { rewrite app_length; simpl; lia. }
      exists vs', ks'. rewrite <- app_assoc in EE, H1, H2. split; auto.
      rewrite <- EE. f_equal. f_equal. rewrite app_length; simpl; lia.
    + cbn [bind app]. apply IH; auto. intros k' Hk'; apply Hb; now right.
Qed.
End FromDense.

Lemma concat_snoc {A} (L : list (list A)) l : concat (L ++ [l]) = concat L ++ l.
Proof. rewrite concat_app. simpl. now rewrite app_nil_r. Qed.

(** The lines are filled from rows or columns of [d]. *)
Lemma s_of_dense_lines {T U} (cv : T -> U) (chk : T -> bool) o nnz (d : dense T) (g : nat -> nat -> T) :
  let minor := match o with RowMajor => d_rows d | ColMajor => d_cols d end in
  let maj := match o with RowMajor => d_cols d | ColMajor => d_rows d end in
  let dirs := if orient_eqb o (d_orient d) then (DCol, DRow) else (DRow, DCol) in
  forall A,
  (forall l, l < minor -> cur_addrs (d_sh d) (fst dirs) (snd dirs) l = Ok (map (A l) (seq 0 maj))) ->
  (forall l k, l < minor -> k < maj -> rd (d_buf d) (A l k) = Ok (g l k)) ->
  count2 minor maj (fun l k => chk (g l k)) <= nnz ->
  exists s, s_of_dense_nnz cv chk o nnz d = Ok s /\ s_o s = o /\ s_nnz s = nnz /\
    sp_mat s (d_rows d) (d_cols d)
      (fun i j => let v := match o with ColMajor => g j i | RowMajor => g i j end in
                  if chk v then Some (cv v) else None).
Proof.
  intros minor maj dirs A HA Hg Hcnt.
  set (L := fun n => map (mkl cv chk g maj) (seq 0 n)).
  assert (HLS : forall n, L (S n) = L n ++ [mkl cv chk g maj n]).
  { intros n. unfold L. rewrite seq_S, map_app. reflexivity. }
  assert (Hmono : forall n, n <= minor -> length (concat (L n)) <= nnz).
  { intros n Hn. unfold L. rewrite <- (mkl_total cv chk g maj minor) in Hcnt.
    replace minor with (n + (minor - n)) in Hcnt by lia.
    rewrite seq_app, map_app, concat_app, app_length in Hcnt. lia. }
  set (I := fun (n : nat) (st : buf U * buf nat * buf nat * nat) =>
    let '(vs, ks, offs, p) := st in
    filled snd (concat (L n)) vs nnz /\ filled fst (concat (L n)) ks nnz /\
    p = length (concat (L n)) /\
    filled (fun x : nat => x) (firstn n (psum 0 (L n))) offs (minor + 1)).
  assert (Hps : forall n, psum 0 (L (S n)) = psum 0 (L n) ++ [length (concat (L (S n)))]).
  { intros n. rewrite HLS, psum_app, concat_snoc, app_length. reflexivity. }
  assert (HlenL : forall n, length (L n) = n) by (intros; unfold L; now rewrite map_length, seq_length).
  assert (Hfn : forall n, firstn (S n) (psum 0 (L n)) = psum 0 (L n)).
  { intros n. apply firstn_all2. rewrite psum_length, HlenL. lia. }
  assert (Hpsn : forall n, firstn n (psum 0 (L n)) ++ [length (concat (L n))] = psum 0 (L n)).
  { intros n. rewrite <- (Hfn n) at 2. pose proof (psum_nth 0 (L n) n) as E.
    rewrite HlenL in E. specialize (E ltac:(lia)).
    replace (0 + start (L n) n) with (length (concat (L n))) in E.
    2:{ rewrite <- (HlenL n) at 3. now rewrite start_all. }
    apply nth_error_split in E as (l1 & l2 & E1 & E2). rewrite E1.
    rewrite firstn_app. rewrite <- E2, firstn_all, Nat.sub_diag, firstn_O, app_nil_r.
    rewrite firstn_app. rewrite (firstn_all2 l1) by lia. replace (S (length l1) - length l1) with 1 by lia. reflexivity. }
  assert (Hfirstlen : forall n, length (firstn n (psum 0 (L n))) = n).
  { intros n. rewrite firstn_length, psum_length, HlenL. lia. }
  destruct (forM_inv (fun l '(vs, ks, offs, n) =>
      do offs <- wr offs l n;
      do ads <- cur_addrs (d_sh d) (fst dirs) (snd dirs) l;
      do st <- foldM (fun '(k, a) '(vs, ks, n) =>
          do v <- rd (d_buf d) a;
          if chk v then
            do vs <- wr vs n (cv v);
            do ks <- wr ks n k;
            Ok (vs, ks, S n)
          else Ok (vs, ks, n)) (enum ads) (vs, ks, n);
      let '(vs, ks, n) := st in Ok (vs, ks, offs, n)) I minor
      (alloc nnz, alloc nnz, alloc (minor + 1), 0)) as (st & Est & HI).
  - simpl. repeat split; try (unfold alloc; rewrite repeat_length; lia); try (eexists; reflexivity).
  - intros l [[[vs ks] offs] p] Hl (Hv & Hk & -> & Ho).
    destruct (filled_push (fun x : nat => x) _ offs _ (length (concat (L l))) Ho) as (offs' & Eo & Ho').
    { rewrite Hfirstlen. lia. }
    rewrite Hfirstlen in Eo. rewrite Eo. cbn [bind]. rewrite HA by auto. cbn [bind].
    destruct (line_emit cv chk g A (d_buf d) maj l nnz (concat (L l)) vs ks) as (vs' & ks' & EE & Hv' & Hk'); auto.
    { rewrite <- app_length, <- concat_snoc, <- HLS. apply Hmono. lia. }
    rewrite EE. cbn [bind]. eexists; split; [reflexivity|]. unfold I.
    rewrite <- concat_snoc, <- HLS in Hv', Hk'. rewrite <- concat_snoc, <- HLS. repeat split; try apply Hv'; try apply Hk'; try apply Ho'.
    rewrite Hps. rewrite firstn_app. rewrite psum_length, HlenL, Nat.sub_diag, firstn_O, app_nil_r, Hfn.
    rewrite Hpsn in Ho'. apply Ho'.
  - destruct st as [[[vs ks] offs] p]. destruct HI as (Hv & Hk & -> & Ho).
    destruct (filled_push (fun x : nat => x) _ offs _ (length (concat (L minor))) Ho) as (offs' & Eo & Ho').
    { rewrite Hfirstlen. lia. }
    rewrite Hfirstlen in Eo. rewrite Hpsn in Ho'.
    exists (mkSparse o (d_rows d) (d_cols d) (d_rows d * d_cols d) vs ks offs').
    split; [|split; [reflexivity|split]].
    + unfold s_of_dense_nnz. fold minor. fold dirs.
      destruct dirs as [d1 d2]. cbn [fst snd] in Est. rewrite Est. cbn [bind]. rewrite Eo. reflexivity.
    + apply Hv.
    + apply sp_mat_lines. split; auto. split; auto. split; auto.
      exists (L minor). split; [|split; [|split]].
      * apply repr_intro; simpl; eauto.
        -- destruct Ho' as (HN & tl & ->). rewrite app_length, map_length, psum_length, HlenL in HN.
           destruct tl; [apply app_nil_r|simpl in HN; lia].
        -- destruct Hv as (-> & _). destruct Hk as (-> & _). reflexivity.
      * rewrite HlenL. unfold s_minor; simpl. reflexivity.
      * unfold L, s_major; simpl. apply Forall_forall. intros x Hx. apply in_map_iff in Hx as (l & <- & _).
        apply (mkl_ok cv chk g maj).
      * intros i j Hi Hj. cbn [s_rows s_cols s_o key_of line_of] in *.
        unfold L. unfold line_of, key_of. simpl.
        assert (Hnth : forall l, l < minor -> nth l (map (mkl cv chk g maj) (seq 0 minor)) [] = mkl cv chk g maj l).
        { intros l Hl. apply nth_error_nth. rewrite nth_error_map, nth_error_seq.
          destruct (Nat.ltb_spec l minor); [reflexivity|lia]. }
        destruct o; rewrite Hnth by (unfold minor; auto); rewrite mkl_lk by (unfold maj; auto); reflexivity.
Qed.

(** From a column-major matrix or window, into either orientation. *)
Lemma s_of_dense_spec {T U} (cv : T -> U) (chk : T -> bool) o (d : dense T) r c f nnz :
  view d r c f -> sh_ok (d_sh d) (length (d_buf d)) -> d_orient d = ColMajor ->
  count2 r c (fun i j => chk (f i j)) <= nnz ->
  exists s, s_of_dense_nnz cv chk o nnz d = Ok s /\ s_o s = o /\ s_nnz s = nnz /\
    sp_mat s r c (fun i j => if chk (f i j) then Some (cv (f i j)) else None).
Proof.
  intros Hv Hok Ho Hcnt. pose proof Hv as (Hr & Hc & _). pose proof Hok as (Hl1 & Hl2 & Hin).
  unfold d_rows, d_cols in *.
  destruct o.
  - destruct (s_of_dense_lines cv chk RowMajor nnz d f (addr (d_sh d))) as (s & E & H1 & H2 & H3).
    + intros l Hl. rewrite Ho. simpl. apply cur_rc; auto.
    + intros l k Hl Hk. apply rd_ok. eapply view_cell; eauto; unfold d_rows, d_cols in *; lia.
    + unfold d_rows, d_cols. rewrite Hr, Hc. auto.
    + exists s. unfold d_rows, d_cols in H3. rewrite Hr, Hc in H3. auto.
  - destruct (s_of_dense_lines cv chk ColMajor nnz d (fun j i => f i j) (fun j i => addr (d_sh d) i j)) as (s & E & H1 & H2 & H3).
    + intros l Hl. rewrite Ho. simpl. apply cur_cr; auto.
    + intros l k Hl Hk. apply rd_ok. eapply view_cell; eauto; unfold d_rows, d_cols in *; lia.
    + unfold d_rows, d_cols. rewrite Hr, Hc. rewrite (count2_swap r c (fun i j => chk (f i j))). auto.
    + exists s. unfold d_rows, d_cols in H3. rewrite Hr, Hc in H3. auto.
Qed.

(** ** sparse -> dense *)
(** Entries of all lines, in order. *)
Definition entries {T} (L : list (list (nat * T))) : list (nat * nat * T) :=
  flat_map (fun '(l, line) => map (fun e => (l, fst e, snd e)) line) (enum L).

Lemma enum_from_seq {A} (l : list A) : enum l = combine (seq 0 (length l)) l.
Proof. reflexivity. Qed.

Lemma lines_fold {T X} (s : sparse T) L (G : nat -> nat -> X -> res X) (F : nat -> nat -> T -> X -> res X) st :
  repr s L ->
  (forall l p k v st, rd (s_key s) p = Ok k -> rd (s_val s) p = Ok v -> G l p st = F l k v st) ->
  forM (length L) (fun l st => do ks <- s_range s l; foldM (G l) ks st) st =
  foldM (fun '(l, k, v) st => F l k v st) (entries L) st.
Proof.
  intros HR HG. unfold entries. rewrite foldM_flat_map. unfold forM, enum.
  assert (Hgen : forall L2 q st, (exists L1, L = L1 ++ L2 /\ length L1 = q) ->
     foldM (fun l st => do ks <- s_range s l; foldM (G l) ks st) (seq q (length L2)) st =
     foldM (fun y => foldM (fun '(l, k, v) st => F l k v st)
              (let '(l, line) := y in map (fun e => (l, fst e, snd e)) line)) (combine (seq q (length L2)) L2) st).
  { induction L2 as [|line t IH]; intros q st' (L1 & EL & Hq); [reflexivity|].
    cbn [length seq combine foldM].
    assert (Hn : nth_error L q = Some line).
    { rewrite EL, nth_error_app2 by lia. rewrite Hq, Nat.sub_diag. reflexivity. }
    rewrite (repr_range s L HR q line Hn). cbn [bind].
    rewrite (line_fold s L HR (F q) (G q) q line st' Hn (HG q)).
    rewrite foldM_map. 
    match goal with |- bind ?a _ = bind ?b _ => replace b with a by (apply foldM_ext; intros [k v] s' _; reflexivity) end.
    apply bind_ext; intros st1 _. apply IH. exists (L1 ++ [line]).
    rewrite <- app_assoc, app_length. simpl. split; auto. lia. }
  apply Hgen. exists []; auto.
Qed.

Lemma in_entries {T} (L : list (list (nat * T))) l k v :
  In (l, k, v) (entries L) <-> exists line, nth_error L l = Some line /\ In (k, v) line.
Proof.
  unfold entries. rewrite in_flat_map. split.
  - intros ([l' line] & Hin & H). apply In_enum in Hin. apply in_map_iff in H as ([k' v'] & E & H).
    simpl in E. inversion E; subst. eauto.
  - intros (line & E & H). exists (l, line). split.
    + unfold enum. assert (G : forall s, nth_error L l = Some line -> In (s + l, line) (combine (seq s (length L)) L)).
      { clear. revert l. induction L as [|x t IH]; intros [|l] s E; simpl in *; try discriminate.
        - inversion E; subst. left. now rewrite Nat.add_0_r.
        - right. replace (s + S l) with (S s + l) by lia. now apply IH. }
      apply (G 0 E).
    + apply in_map_iff. exists (k, v). auto.
Qed.

Lemma entries_keys_nodup {T} maj (L : list (list (nat * T))) : lines_ok maj L ->
  NoDup (map (fun e => (fst (fst e), snd (fst e))) (entries L)).
Proof.
  intros HO. unfold entries, enum. generalize 0 as s0.
  induction L as [|line t IH]; intros s0; simpl; [constructor|].
  inversion HO as [|? ? Hl Ht]; subst. rewrite map_app, map_map. simpl.
  assert (D : forall l1 l2 : list (nat * nat), NoDup l1 -> NoDup l2 ->
     (forall x, In x l1 -> ~ In x l2) -> NoDup (l1 ++ l2)).
  { clear. induction l1 as [|x l1 IH]; intros l2 H1 H2 Hd; simpl; auto.
    inversion H1; subst. constructor.
    - rewrite in_app_iff. intros [H|H]; [contradiction|]. apply (Hd x); [now left|auto].
    - apply IH; auto. intros y Hy. apply Hd. now right. }
  apply D.
  - rewrite <- (map_map fst (fun k => (s0, k))). apply NoDup_map_inj.
    + apply SSorted_NoDup. apply Hl.
    + intros x y _ _ E. now inversion E.
  - apply (IH Ht (S s0)).
  - intros x Hx Hy. apply in_map_iff in Hx as (e & <- & _).
    apply in_map_iff in Hy as ([[l k] v] & E & Hin). simpl in E. inversion E; subst.
    apply in_flat_map in Hin as ([l' line'] & Hin & H2). apply in_combine_l in Hin. apply in_seq in Hin.
    apply in_map_iff in H2 as (e2 & E2 & _). inversion E2; subst. lia.
Qed.

Lemma d_of_sparse_spec {T U} (cv : T -> U) (zero : U) o (s : sparse T) r c f :
  sp_mat s r c f ->
  exists d, d_of_sparse cv zero o s = Ok d /\
    is_mat d r c (fun i j => dflt zero (option_map cv (f i j))) /\ d_orient d = o /\ full_ok d /\ d_own d = true.
Proof.
  intros HM. apply sp_mat_lines in HM as (Hr & Hc & Hfu & L & HR & HL & HO & Hd).
  set (sh := own_shape o (s_rows s) (s_cols s)).
  set (same := orient_eqb o (s_o s)). set (maj := getMajorDimension sh).
  (* address of entry (l, k) *)
  set (ad := fun l k => if same then l * maj + k else l + k * maj).
  assert (Had : forall i j, ad (line_of s i j) (key_of s i j) = addr sh i j).
  { intros i j. unfold ad, same, addr, sh, maj, getMajorDimension, own_shape, line_of, key_of, getLdRows, getLdColumns; simpl.
    destruct o, (s_o s); simpl; lia. }
  assert (Hback : forall l k, l < s_minor s -> k < s_major s -> exists i j,
             i < r /\ j < c /\ line_of s i j = l /\ key_of s i j = k).
  { intros l k. unfold s_minor, s_major, line_of, key_of. rewrite Hr, Hc.
    destruct (s_o s); intros; [exists l, k|exists k, l]; auto. }
  assert (Hent : forall l k v, In (l, k, v) (entries L) ->
             exists i j, i < r /\ j < c /\ line_of s i j = l /\ key_of s i j = k /\ f i j = Some v).
  { intros l k v Hin. apply in_entries in Hin as (line & E & Hin).
    assert (Hll : l < s_minor s) by (rewrite <- HL; apply nth_error_Some; congruence).
    assert (Hok : line_ok (s_major s) line).
    { eapply Forall_forall in HO; [exact HO|]. eapply nth_error_In; eauto. }
    assert (Hkk : k < s_major s).
    { destruct Hok as (_ & HF). eapply Forall_forall in HF; [exact HF|]. apply in_map_iff. exists (k, v); auto. }
    destruct (Hback l k Hll Hkk) as (i & j & Hi & Hj & E1 & E2). exists i, j. repeat (split; auto).
    rewrite Hd by lia. rewrite E1, E2. rewrite (nth_error_nth L l [] E).
    apply lk_In_iff; auto. apply SSorted_NoDup. apply Hok. }
  set (d0 := mkDense sh (r * c) (repeat (Some zero) (s_full s)) true).
  assert (W0 : wf_mem d0).
  { repeat split. simpl. rewrite repeat_length, Hfu. unfold d_rows, d_cols; simpl. now rewrite Hr, Hc. }
  assert (Hb0 : length (repeat (Some zero) (s_full s)) = r * c) by (rewrite repeat_length; auto).
  assert (Hadlt : forall i j, i < r -> j < c -> addr sh i j < r * c).
  { intros i j Hi Hj. pose proof (wf_sh_ok d0 W0) as (_ & _ & H). simpl in H. rewrite Hb0 in H.
    apply H; unfold sh; simpl; lia. }
  unfold d_of_sparse. rewrite (repr_nlines s L HR). cbn [bind]. fold sh same maj.
  rewrite (lines_fold s L
     (fun l p b => do k <- rd (s_key s) p; do v <- rd (s_val s) p; wr b (if same then l * maj + k else l + k * maj) (cv v))
     (fun l k v b => wr b (ad l k) (cv v))); auto.
  2:{ intros l p k v b E1 E2. rewrite E1. cbn [bind]. rewrite E2. reflexivity. }
  (* the writes *)
  set (ws := map (fun e : nat * nat * T => (ad (fst (fst e)) (snd (fst e)), Some (cv (snd e)))) (entries L)).
  assert (Ews : foldM (fun '(l, k, v) b => wr b (ad l k) (cv v)) (entries L) (repeat (Some zero) (s_full s))
                = writes ws (repeat (Some zero) (s_full s))).
  { unfold writes, ws. rewrite foldM_map. apply foldM_ext. intros [[l k] v] b _. reflexivity. }
  rewrite Ews.
  destruct (writes_ok ws (repeat (Some zero) (s_full s))) as (b' & Eb & Hlb & Hin1 & Hout).
  { intros a x Hin. unfold ws in Hin. apply in_map_iff in Hin as ([[l k] v] & E & Hin). inversion E; subst; simpl.
    destruct (Hent l k v Hin) as (i & j & Hi & Hj & <- & <- & _). rewrite Had, Hb0. auto. }
  rewrite Eb. cbn [bind]. eexists; split; [reflexivity|].
  assert (Hnd : NoDup (map fst ws)).
  { unfold ws. rewrite map_map. simpl.
    rewrite <- (map_map (fun e : nat * nat * T => (fst (fst e), snd (fst e))) (fun p => ad (fst p) (snd p))).
    apply NoDup_map_inj; [eapply entries_keys_nodup; eauto|].
    intros [l k] [l' k'] H1 H2 E.
    apply in_map_iff in H1 as ([[l1 k1] v1] & E1 & H1). apply in_map_iff in H2 as ([[l2 k2] v2] & E2 & H2).
    simpl in E1, E2. injection E1 as <- <-. injection E2 as <- <-. simpl in E.
    destruct (Hent _ _ _ H1) as (i & j & Hi & Hj & <- & <- & _).
    destruct (Hent _ _ _ H2) as (i' & j' & Hi' & Hj' & <- & <- & _).
    rewrite !Had in E.
    destruct (addr_inj sh (r * c) i j i' j') as (-> & ->); auto; unfold sh; simpl; try lia.
    pose proof (wf_sh_ok d0 W0) as H. simpl in H. rewrite Hb0 in H. exact H. }
  split; [|split; [reflexivity|split; [|reflexivity]]].
  2:{ unfold full_ok; simpl. unfold d_rows, d_cols; reflexivity. }
  split.
  - repeat split. simpl. rewrite Hlb, Hb0. unfold d_rows, d_cols; simpl. now rewrite Hr, Hc.
  - apply view_from_cells; auto. intros i j Hi Hj. cbn [d_buf d_sh].
    destruct (f i j) as [v|] eqn:Ef; simpl.
    + apply (Hin1 Hnd). unfold ws. apply in_map_iff. exists (line_of s i j, key_of s i j, v).
      simpl. rewrite Had. split; auto. apply in_entries.
      rewrite Hd in Ef by lia. pose proof (line_of_lt s i j ltac:(lia) ltac:(lia)) as Hl.
      destruct (nth_error L (line_of s i j)) as [line|] eqn:E; [|apply nth_error_None in E; lia].
      exists line; split; auto. rewrite (nth_error_nth L _ [] E) in Ef. now apply lk_In.
    + rewrite Hout.
      * apply nth_error_repeat. rewrite Hfu. auto.
      * intros Hin. unfold ws in Hin. rewrite map_map in Hin. simpl in Hin.
        apply in_map_iff in Hin as ([[l k] v] & E & Hin). simpl in E.
        destruct (Hent l k v Hin) as (i' & j' & Hi' & Hj' & <- & <- & Ef').
        rewrite Had in E.
        destruct (addr_inj sh (r * c) i' j' i j) as (-> & ->); auto; unfold sh; simpl; try lia; [|congruence].
        pose proof (wf_sh_ok d0 W0) as H. simpl in H. rewrite Hb0 in H. exact H.
Qed.
