(** Transposition of sparse matrices (counting sort). *)
From Verif Require Import Base BaseLemmas Dense_Model Dense_Spec Dense_Proofs Dense2_Proofs Sparse_Model Sparse_Spec Sparse_Proofs Sparse2_Proofs Sparse3_Proofs Sparse4_Proofs.
From Coq Require Import Sorting.Sorted Sorting.Permutation.

Section TL.
Context {T : Type}.
Notation ent := (nat * nat * T)%type.

(** Entries with key [k], as a line of the transposed matrix. *)
Definition tl_ (es : list ent) (k : nat) : list (nat * T) :=
  flat_map (fun e => if snd (fst e) =? k then [(fst (fst e), snd e)] else []) es.

Lemma tl_app es1 es2 k : tl_ (es1 ++ es2) k = tl_ es1 k ++ tl_ es2 k.
Proof. unfold tl_. apply flat_map_app. Qed.

Lemma tl_snoc es l k v k' : tl_ (es ++ [(l, k, v)]) k' = if k =? k' then tl_ es k' ++ [(l, v)] else tl_ es k'.
Proof. rewrite tl_app. unfold tl_ at 2. simpl. destruct (k =? k'); simpl; auto. apply app_nil_r. Qed.

Lemma in_tl es k l v : In (l, v) (tl_ es k) <-> In (l, k, v) es.
Proof.
  unfold tl_. rewrite in_flat_map. split.
  - intros ([[l' k'] v'] & Hin & H). simpl in H. destruct (Nat.eqb_spec k' k) as [->|]; [|contradiction].
    destruct H as [H|[]]. inversion H; subst; auto.
  - intros H. exists (l, k, v). split; auto. simpl. rewrite Nat.eqb_refl. now left.
Qed.

(** Lexicographically sorted entries give sorted lines. *)
Definition lexlt (a b : ent) : Prop :=
  fst (fst a) < fst (fst b) \/ (fst (fst a) = fst (fst b) /\ snd (fst a) < snd (fst b)).

Lemma tl_sorted es k : StronglySorted lexlt es -> StronglySorted lt (map fst (tl_ es k)).
Proof.
  induction 1 as [|[[l k'] v] es HS IH HF]; simpl; [constructor|].
  destruct (Nat.eqb_spec k' k) as [->|]; simpl; [|exact IH]. constructor; auto.
  apply Forall_forall. intros l' Hl'. apply in_map_iff in Hl' as ([l'' v'] & <- & Hin). simpl.
  apply in_tl in Hin. eapply Forall_forall in HF; [|exact Hin]. unfold lexlt in HF. simpl in HF. lia.
Qed.

Lemma entries_sorted maj (L : list (list (nat * T))) : lines_ok maj L -> StronglySorted lexlt (entries L).
Proof.
  intros HO. unfold entries, enum. generalize 0 as s0. revert HO.
  induction L as [|line t IH]; intros HO s0; simpl; [constructor|].
  inversion HO as [|? ? Hl Ht]; subst.
  assert (HS : StronglySorted lexlt (map (fun e => (s0, fst e, snd e)) line)).
  { destruct Hl as (HS & _). clear -HS. induction line as [|[k v] line IH]; simpl; [constructor|].
    simpl in HS. inversion HS as [|? ? HS' HF]; subst. constructor; auto.
    apply Forall_forall. intros x Hx. apply in_map_iff in Hx as ([k' v'] & <- & Hin).
    right. simpl. split; auto. eapply Forall_forall in HF; [exact HF|]. apply in_map_iff. exists (k', v'); auto. }
  assert (HA : forall a b : list ent, StronglySorted lexlt a -> StronglySorted lexlt b ->
     (forall x y, In x a -> In y b -> lexlt x y) -> StronglySorted lexlt (a ++ b)).
  { clear. induction a as [|x a IH]; intros b Ha Hb Hab; simpl; auto.
    inversion Ha; subst. constructor.
    - apply IH; auto. intros; apply Hab; auto. now right.
    - apply Forall_app. split; auto. apply Forall_forall. intros y Hy. apply Hab; auto. now left. }
  apply HA; auto.
  - intros x y Hx Hy. apply in_map_iff in Hx as (e & <- & _).
    apply in_flat_map in Hy as ([l' line'] & Hin & H2). apply in_combine_l in Hin. apply in_seq in Hin.
    apply in_map_iff in H2 as (e2 & <- & _). left. simpl. lia.
Qed.

Lemma tl_total (es : list ent) r : (forall l k v, In (l, k, v) es -> k < r) ->
  length (concat (map (tl_ es) (seq 0 r))) = length es.
Proof.
  induction es as [|[[l k] v] es IH]; intros Hk.
  - simpl. generalize (seq 0 r). induction l as [|x l IH]; simpl; auto.
  - assert (Hk0 : k < r) by (apply (Hk l k v); now left).
    cbn [length]. rewrite <- IH by (intros l' k' v' H'; apply (Hk l' k' v'); now right). cbn [length].
    assert (G : forall n s, length (concat (map (tl_ ((l, k, v) :: es)) (seq s n))) =
              (if (s <=? k) && (k <? s + n) then 1 else 0) + length (concat (map (tl_ es) (seq s n)))).
    { clear. induction n as [|n IH]; intros s.
      - simpl. destruct (Nat.leb_spec s k), (Nat.ltb_spec k (s + 0)); simpl; auto; lia.
      - cbn [seq map concat]. rewrite !app_length, IH. cbn [Nat.add].
        replace (tl_ ((l, k, v) :: es) s) with ((if k =? s then [(l, v)] else []) ++ tl_ es s) by reflexivity.
        rewrite app_length.
        destruct (Nat.eqb_spec k s) as [->|].
        + cbn [length]. destruct (Nat.leb_spec (S s) s); [lia|]. destruct (Nat.leb_spec s s); [|lia].
          destruct (Nat.ltb_spec s (s + S n)); [|lia]. cbn [andb]. lia.
        + cbn [length]. destruct (Nat.leb_spec (S s) k), (Nat.leb_spec s k), (Nat.ltb_spec k (s + S n)), (Nat.ltb_spec k (S (s + n)));
            cbn [andb]; lia. }
    rewrite G. simpl. destruct (Nat.ltb_spec k r); [reflexivity|lia].
Qed.
End TL.

Lemma concat_surj {A} (L : list (list A)) p : p < length (concat L) ->
  exists l line q, nth_error L l = Some line /\ q < length line /\ p = start L l + q.
Proof.
  revert p; induction L as [|x t IH]; intros p Hp; simpl in Hp; [lia|]. rewrite app_length in Hp.
  destruct (Nat.lt_ge_cases p (length x)) as [Hlt|Hge].
  - exists 0, x, p. repeat split; auto.
  - destruct (IH (p - length x)) as (l & line & q & E & Hq & Ep); [lia|].
    exists (S l), line, q. repeat split; auto. unfold start in *. simpl. rewrite app_length. lia.
Qed.

(** Arrays given pointwise represent the lines. *)
Lemma filled_pointwise {A V} (h : A -> V) (L : list (list A)) b :
  length (concat L) <= length b ->
  (forall l line q e, nth_error L l = Some line -> nth_error line q = Some e ->
     nth_error b (start L l + q) = Some (Some (h e))) ->
  filled h (concat L) b (length b).
Proof.
  intros Hlen H. split; auto. exists (skipn (length (concat L)) b).
  apply nth_error_ext. intros p. destruct (Nat.lt_ge_cases p (length (concat L))) as [Hp|Hp].
  - rewrite nth_error_app1 by (now rewrite map_length). rewrite nth_error_map.
    destruct (concat_surj L p Hp) as (l & line & q & E & Hq & ->).
    rewrite (concat_nth L l line q E Hq).
    destruct (nth_error line q) as [e|] eqn:Eq; [|apply nth_error_None in Eq; lia].
    simpl. eapply H; eauto.
  - rewrite nth_error_app2 by (now rewrite map_length). rewrite map_length.
    rewrite <- (firstn_skipn (length (concat L)) b) at 1.
    rewrite nth_error_app2 by (rewrite firstn_length; lia). f_equal. rewrite firstn_length. lia.
Qed.

Lemma nth_map_seq {A} (f : nat -> A) n i d : i < n -> nth i (map f (seq 0 n)) d = f i.
Proof.
  intros Hi. apply nth_error_nth. rewrite nth_error_map, nth_error_seq.
  destruct (Nat.ltb_spec i n); [reflexivity|lia].
Qed.
Lemma nth_error_map_seq {A} (f : nat -> A) n i : i < n -> nth_error (map f (seq 0 n)) i = Some (f i).
Proof.
  intros Hi. rewrite nth_error_map, nth_error_seq. destruct (Nat.ltb_spec i n); [reflexivity|lia].
Qed.

Section Transpose.
Context {T : Type} (m : sparse T) (r c : nat) (f : nat -> nat -> option T).
Hypothesis HM : sp_mat m r c f.
Hypothesis HO : s_o m = ColMajor.
Hypothesis Hr1 : 1 <= r.

Lemma s_transpose_spec : exists t, s_transpose m = Ok t /\ s_o t = ColMajor /\
  sp_mat t c r (fun i j => f j i) /\ (s_nnz m <> 0 -> s_nnz t = s_nnz m).
Proof.
  destruct (col_entries m r c f HM HO) as (L & HR & HL & HOK & Hent & HND).
  pose proof HM as (_ & Hrows & Hcols & _).
  set (es := entries L) in *.
  set (TLs := fun es : list (nat * nat * T) => map (tl_ es) (seq 0 r)).
  assert (Hk : forall l k v, In (l, k, v) es -> k < r) by (intros l k v H; apply Hent in H; tauto).
  assert (Hl : forall l k v, In (l, k, v) es -> l < c) by (intros l k v H; apply Hent in H; tauto).
  assert (Hess : length (concat L) = length es).
  { unfold es, entries, enum. generalize 0. clear. induction L as [|x t IH]; intros n; simpl; auto.
    rewrite !app_length, map_length. f_equal. apply IH. }
  assert (Hnnz : length es <= s_nnz m).
  { unfold s_nnz. pose proof HR as (_ & tv & tk & -> & _). rewrite app_length, map_length. lia. }
  unfold s_transpose. rewrite (repr_nlines m L HR). cbn [bind].
  set (t0 := s_new (s_o m) (s_cols m) (s_rows m) (s_nnz m)).
  set (N := length (s_val t0)).
  assert (HN : length es <= N).
  { unfold N, t0. simpl. unfold alloc. rewrite repeat_length. destruct (Nat.eqb_spec (s_nnz m) 0); lia. }
  assert (HNk : length (s_key t0) = N).
  { unfold N, t0. simpl. unfold alloc. now rewrite !repeat_length. }
  (* 1: counting *)
  set (offs_cnt := fun es : list (nat * nat * T) => map Some (0 :: map (fun k => length (tl_ es k)) (seq 0 r))).
  assert (Hinit : map (fun _ => Some 0) (s_off t0) = offs_cnt []).
  { unfold t0, offs_cnt. simpl. rewrite Hrows. unfold alloc.
    apply nth_error_ext. intros i. rewrite nth_error_map.
    destruct (Nat.lt_ge_cases i (r + 1)).
    - rewrite nth_error_repeat by auto. destruct i as [|i]; simpl; auto.
      rewrite nth_error_map, nth_error_map_seq by lia. reflexivity.
    - rewrite nth_error_repeat_None by auto. simpl. symmetry. destruct i as [|i]; [lia|]. simpl.
      apply nth_error_None. rewrite !map_length, seq_length. lia. }
  assert (Hoc : forall es0 q, q < r -> nth_error (offs_cnt es0) (S q) = Some (Some (length (tl_ es0 q)))).
  { intros es0 q Hq. unfold offs_cnt. change (nth_error (map Some (map (fun k => length (tl_ es0 k)) (seq 0 r))) q = Some (Some (length (tl_ es0 q)))).
    now rewrite nth_error_map, nth_error_map_seq. }
  assert (Hcl : forall es, length (offs_cnt es) = S r).
  { intros. unfold offs_cnt. simpl. now rewrite !map_length, seq_length. }
  rewrite (lines_fold m L
     (fun l p offs => do k <- rd (s_key m) p; do x <- rd offs (1 + k); wr offs (1 + k) (S x))
     (fun l k v offs => do x <- rd offs (1 + k); wr offs (1 + k) (S x))); auto.
  2:{ intros l p k v st E1 E2. rewrite E1. reflexivity. }
  fold es. rewrite Hinit.
  assert (Hcount : forall es2 es1, es = es1 ++ es2 ->
    foldM (fun '(l, k, v) offs => do x <- rd offs (1 + k); wr offs (1 + k) (S x)) es2 (offs_cnt es1) = Ok (offs_cnt es)).
  { induction es2 as [|[[l k] v] es2 IH]; intros es1 Ees.
    - rewrite app_nil_r in Ees. now subst es1.
    - assert (Hkr : k < r) by (apply (Hk l k v); rewrite Ees; apply in_or_app; right; now left).
      cbn [foldM].
      assert (E1 : rd (offs_cnt es1) (1 + k) = Ok (length (tl_ es1 k))).
      { apply rd_ok. unfold offs_cnt. cbn [map nth_error Nat.add]. rewrite nth_error_map, nth_error_map_seq by auto. reflexivity. }
      rewrite E1. cbn [bind]. rewrite wr_ok by (rewrite Hcl; lia). cbn [bind].
      replace (upd (offs_cnt es1) (1 + k) (Some (S (length (tl_ es1 k))))) with (offs_cnt (es1 ++ [(l, k, v)])).
      { apply IH. rewrite <- app_assoc. exact Ees. }
      apply nth_error_ext. intros i. rewrite nth_error_upd. rewrite Hcl.
      destruct (Nat.eqb_spec (1 + k) i) as [<-|Hne]; simpl.
      + destruct (Nat.ltb_spec (S k) (S r)); [|lia]. unfold offs_cnt. cbn [map nth_error].
        rewrite nth_error_map, nth_error_map_seq by auto. simpl. rewrite tl_snoc, Nat.eqb_refl, app_length. simpl. do 3 f_equal. lia.
      + unfold offs_cnt. destruct i as [|i]; [reflexivity|]. cbn [map nth_error]. rewrite !nth_error_map.
        rewrite nth_error_seq. destruct (Nat.ltb_spec i r); [|reflexivity]. simpl.
        rewrite tl_snoc. destruct (Nat.eqb_spec k i); [lia|reflexivity]. }
  rewrite (Hcount es []) by reflexivity. cbn [bind]. clear Hcount Hinit.
  (* 2: accumulation *)
  assert (HTlen : length (TLs es) = r) by (unfold TLs; now rewrite map_length, seq_length).
  assert (HTn : forall k, k < r -> nth_error (TLs es) k = Some (tl_ es k)).
  { intros k Hkr. unfold TLs. now apply nth_error_map_seq. }
  set (acc := fun (i : nat) (offs : buf nat) => length offs = S r /\
     (forall q, q < i -> q <= r -> nth_error offs q = Some (Some (start (TLs es) q))) /\
     (forall q, i <= q -> 1 <= q <= r -> nth_error offs q = Some (Some (length (tl_ es (q - 1)))))).
  rewrite Hcl. destruct (Nat.ltb_spec (S r) 2); [lia|].
  destruct (foldM_inv (fun i offs => do x <- rd offs i; do y <- rd offs (i - 1); wr offs i (x + y))
     (fun n offs => acc (2 + n) offs) (seq 2 (S r - 2)) (offs_cnt es)) as (offs & Eacc & Hacc).
  - split; [apply Hcl|]. split.
    + intros q Hq Hqr. destruct q as [|[|q]]; try lia.
      * reflexivity.
      * rewrite Hoc by lia.
        do 2 f_equal. rewrite (start_S (TLs es) 0 (tl_ es 0)) by (apply HTn; lia). reflexivity.
    + intros q Hq Hqr. destruct q as [|q]; [lia|]. rewrite Hoc by lia. simpl. now rewrite Nat.sub_0_r.
  - intros n i offs Ei (A1 & A2 & A3). rewrite nth_error_seq in Ei.
    destruct (Nat.ltb_spec n (S r - 2)); [|discriminate]. injection Ei as <-.
    assert (E1 : rd offs (2 + n) = Ok (length (tl_ es (1 + n)))).
    { apply rd_ok. rewrite A3 by lia. do 3 f_equal; lia. }
    assert (E2 : rd offs (2 + n - 1) = Ok (start (TLs es) (1 + n))).
    { apply rd_ok. rewrite A2 by lia. do 3 f_equal; lia. }
    cbn [Nat.add] in E1, E2. rewrite E1. cbn [bind]. rewrite E2. cbn [bind]. rewrite wr_ok by lia.
    eexists; split; [reflexivity|]. split; [now rewrite upd_length|]. split.
    + intros q Hq Hqr. rewrite nth_error_upd. destruct (Nat.eqb_spec (S (S n)) q) as [<-|].
      * destruct (Nat.ltb_spec (S (S n)) (length offs)); [|lia]. cbn [andb]. do 2 f_equal.
        change (S (S n)) with (S (1 + n)). rewrite (start_S (TLs es) (1 + n) (tl_ es (1 + n))) by (apply HTn; lia). cbn [Nat.add]. lia.
      * simpl. apply A2; lia.
    + intros q Hq Hqr. rewrite nth_error_upd_ne by lia. apply A3; lia.
  - rewrite seq_length in Hacc. destruct Hacc as (B1 & B2 & _).
    rewrite Eacc. cbn [bind]. clear Eacc.
    assert (Hoffs : offs = map Some (psum 0 (TLs es))).
    { apply nth_error_ext. intros q. rewrite nth_error_map. destruct (Nat.le_gt_cases q r).
      - rewrite B2 by lia. rewrite psum_nth by lia. reflexivity.
      - rewrite (proj2 (nth_error_None offs q)) by lia.
        rewrite (proj2 (nth_error_None (psum 0 (TLs es)) q)) by (rewrite psum_length, HTlen; lia). reflexivity. }
    assert (Hoff : forall k, k <= r -> rd offs k = Ok (start (TLs es) k)).
    { intros k Hkr. apply rd_ok. apply B2; lia. }
    (* 3: insertion *)
    rewrite B1. replace (S r - 1) with r by lia.
    rewrite (lines_fold m L
       (fun l p '(vs, tk, cur) =>
        do k <- rd (s_key m) p;
        do o <- rd offs k;
        do q <- rd cur k;
        do v <- rd (s_val m) p;
        do vs <- wr vs (o + q) v;
        do tk <- wr tk (o + q) l;
        do cur <- wr cur k (S q);
        Ok (vs, tk, cur))
       (fun l k v '(vs, tk, cur) =>
        do o <- rd offs k;
        do q <- rd cur k;
        do vs <- wr vs (o + q) v;
        do tk <- wr tk (o + q) l;
        do cur <- wr cur k (S q);
        Ok (vs, tk, cur))); auto.
    2:{ intros l p k v [[vs tk] cur] E1 E2. rewrite E1. cbn [bind].
        apply bind_ext; intros o _. apply bind_ext; intros q _. rewrite E2. reflexivity. }
    fold es.
    set (cur_of := fun es1 : list (nat * nat * T) => map Some (map (fun k => length (tl_ es1 k)) (seq 0 r))).
    assert (Hstart_inj : forall k q k' q', k < r -> k' < r -> q < length (tl_ es k) -> q' < length (tl_ es k') ->
       start (TLs es) k + q = start (TLs es) k' + q' -> k = k' /\ q = q').
    { assert (Hmono : forall k k', k < k' -> k' <= r -> start (TLs es) k + length (tl_ es k) <= start (TLs es) k').
      { intros k k' Hlt. induction Hlt as [|k' Hlt IH]; intros Hk'.
        - rewrite (start_S (TLs es) k (tl_ es k)) by (apply HTn; lia). lia.
        - rewrite (start_S (TLs es) k' (tl_ es k')) by (apply HTn; lia). specialize (IH ltac:(lia)). lia. }
      intros k q k' q' Hk1 Hk2 Hq Hq' E. destruct (Nat.lt_total k k') as [Hlt|[->|Hlt]].
      - pose proof (Hmono k k' Hlt ltac:(lia)). lia.
      - split; auto; lia.
      - pose proof (Hmono k' k Hlt ltac:(lia)). lia. }
    assert (Htot : length (concat (TLs es)) = length es) by (apply tl_total; exact Hk).
    assert (Hbound : forall k q, k < r -> q < length (tl_ es k) -> start (TLs es) k + q < N).
    { intros k q Hkr Hq. pose proof (start_le (TLs es) (S k)) as Hs.
      rewrite (start_S (TLs es) k (tl_ es k)) in Hs by (apply HTn; lia). lia. }
    assert (Hins : forall es2 es1 vs tk, es = es1 ++ es2 ->
      length vs = N -> length tk = N ->
      (forall k q e, k < r -> nth_error (tl_ es1 k) q = Some e ->
         nth_error vs (start (TLs es) k + q) = Some (Some (snd e)) /\
         nth_error tk (start (TLs es) k + q) = Some (Some (fst e))) ->
      exists vs' tk' cur',
        foldM (fun '(l, k, v) '(vs, tk, cur) =>
          do o <- rd offs k;
          do q <- rd cur k;
          do vs <- wr vs (o + q) v;
          do tk <- wr tk (o + q) l;
          do cur <- wr cur k (S q);
          Ok (vs, tk, cur)) es2 (vs, tk, cur_of es1) = Ok (vs', tk', cur') /\
        length vs' = N /\ length tk' = N /\
        (forall k q e, k < r -> nth_error (tl_ es k) q = Some e ->
         nth_error vs' (start (TLs es) k + q) = Some (Some (snd e)) /\
         nth_error tk' (start (TLs es) k + q) = Some (Some (fst e)))).
    { induction es2 as [|[[l k] v] es2 IH]; intros es1 vs tk Ees Hlv Hlt Hcells.
      - rewrite app_nil_r in Ees. exists vs, tk, (cur_of es1). cbn [foldM].
        split; [reflexivity|]. split; auto. split; auto. intros k q e Hkr Hq. apply Hcells; auto. now rewrite <- Ees.
      - assert (Hkr : k < r) by (apply (Hk l k v); rewrite Ees; apply in_or_app; right; now left).
        cbn [foldM].
        rewrite Hoff by lia. cbn [bind].
        assert (Ec : rd (cur_of es1) k = Ok (length (tl_ es1 k))).
        { apply rd_ok. unfold cur_of. rewrite nth_error_map, nth_error_map_seq by auto. reflexivity. }
        rewrite Ec. cbn [bind].
        assert (Hq : length (tl_ es1 k) < length (tl_ es k)).
        { rewrite Ees, tl_app, app_length. unfold tl_ at 3. simpl. rewrite Nat.eqb_refl. simpl. lia. }
        pose proof (Hbound k (length (tl_ es1 k)) Hkr Hq) as Hb.
        rewrite !wr_ok by lia. cbn [bind].
        rewrite wr_ok by (unfold cur_of; rewrite !map_length, seq_length; auto). cbn [bind].
        replace (upd (cur_of es1) k (Some (S (length (tl_ es1 k))))) with (cur_of (es1 ++ [(l, k, v)])).
        2:{ apply nth_error_ext. intros i. rewrite nth_error_upd.
            assert (Hlc : length (cur_of es1) = r) by (unfold cur_of; now rewrite !map_length, seq_length).
            rewrite Hlc. destruct (Nat.eqb_spec k i) as [<-|Hne]; simpl.
            - destruct (Nat.ltb_spec k r); [|lia]. unfold cur_of. rewrite nth_error_map, nth_error_map_seq by auto.
              simpl. rewrite tl_snoc, Nat.eqb_refl, app_length. simpl. do 3 f_equal. lia.
            - unfold cur_of. rewrite !nth_error_map, nth_error_seq. destruct (Nat.ltb_spec i r); [|reflexivity].
              simpl. rewrite tl_snoc. destruct (Nat.eqb_spec k i); [lia|reflexivity]. }
        apply IH.
        + rewrite <- app_assoc. exact Ees.
        + now rewrite upd_length.
        + now rewrite upd_length.
        + intros k' q' e Hkr' He. rewrite tl_snoc in He.
          assert (Hpre : forall q e, nth_error (tl_ es1 k') q = Some e -> q < length (tl_ es k')).
          { intros q e0 E0. assert (q < length (tl_ es1 k')) by (apply nth_error_Some; congruence).
            rewrite Ees, tl_app, app_length. lia. }
          assert (Hold : forall q e, nth_error (tl_ es1 k') q = Some e ->
             (k = k' -> q <> length (tl_ es1 k)) -> 
             nth_error (upd vs (start (TLs es) k + length (tl_ es1 k)) (Some v)) (start (TLs es) k' + q) = Some (Some (snd e)) /\
             nth_error (upd tk (start (TLs es) k + length (tl_ es1 k)) (Some l)) (start (TLs es) k' + q) = Some (Some (fst e))).
          { intros q e0 E0 Hne. rewrite !nth_error_upd_ne.
            - apply Hcells; auto.
            - intros EE. apply Hstart_inj in EE; eauto. destruct EE as (EE1 & EE2). apply (Hne EE1); auto.
            - intros EE. apply Hstart_inj in EE; eauto. destruct EE as (EE1 & EE2). apply (Hne EE1); auto. }
          destruct (Nat.eqb_spec k k') as [<-|Hne].
          * destruct (Nat.lt_ge_cases q' (length (tl_ es1 k))) as [Hlt'|Hge].
            -- rewrite nth_error_app1 in He by auto. apply Hold; auto. intros; lia.
            -- assert (Hq' : q' < length (tl_ es1 k ++ [(l, v)])) by (apply nth_error_Some; congruence).
               rewrite app_length in Hq'. simpl in Hq'. assert (q' = length (tl_ es1 k)) by lia. subst q'.
               rewrite nth_error_app2, Nat.sub_diag in He by lia. simpl in He. injection He as <-.
               rewrite !nth_error_upd_eq by lia. auto.
          * apply Hold; auto.  }
    destruct (Hins es [] (s_val t0) (s_key t0) eq_refl eq_refl HNk) as (vs & tk & cur & EE & Lv & Lt & Hcells).
    { intros k q e _ He. unfold tl_ in He. simpl in He. destruct q; discriminate. }
    assert (Ecur : cur_of [] = repeat (Some 0) r).
    { apply nth_error_ext. intros i. unfold cur_of. rewrite !nth_error_map, nth_error_seq.
      destruct (Nat.ltb_spec i r).
      - rewrite nth_error_repeat by auto. reflexivity.
      - rewrite nth_error_repeat_None by auto. reflexivity. }
    rewrite Ecur in EE.
    match goal with |- context[foldM ?g es ?st] => replace (foldM g es st) with (Ok (vs, tk, cur)) by (symmetry; exact EE) end.
    cbn [bind].
    eexists; split; [reflexivity|]. split; [exact HO|]. split.
    + apply sp_mat_lines. cbn [s_rows s_cols s_full t0 s_new].
      split; [exact Hcols|]. split; [exact Hrows|]. split; [now rewrite Hrows, Hcols|].
      exists (TLs es). split; [|split; [|split]].
      * assert (Hf1 : filled snd (concat (TLs es)) vs (length vs)).
        { apply filled_pointwise; [lia|]. intros k line q e E1 E2.
          assert (k < r) by (rewrite <- HTlen; apply nth_error_Some; congruence).
          rewrite HTn in E1 by auto. injection E1 as <-. apply Hcells; auto. }
        assert (Hf2 : filled fst (concat (TLs es)) tk (length tk)).
        { apply filled_pointwise; [lia|]. intros k line q e E1 E2.
          assert (k < r) by (rewrite <- HTlen; apply nth_error_Some; congruence).
          rewrite HTn in E1 by auto. injection E1 as <-. apply Hcells; auto. }
        apply repr_intro; simpl; eauto. lia.
      * unfold s_minor; simpl. rewrite HO, Hrows. exact HTlen.
      * unfold s_major; simpl. rewrite HO, Hcols. apply Forall_forall. intros line Hline.
        unfold TLs in Hline. apply in_map_iff in Hline as (k & <- & _). split.
        -- apply tl_sorted. eapply entries_sorted; eauto.
        -- apply Forall_forall. intros l Hin. apply in_map_iff in Hin as ([l' v] & <- & Hin).
           apply in_tl in Hin. simpl. eapply Hl; eauto.
      * intros i j Hi Hj. cbn [s_rows s_cols] in Hi, Hj. rewrite Hcols in Hi. rewrite Hrows in Hj.
        unfold line_of, key_of; simpl. rewrite HO. unfold TLs. rewrite nth_map_seq by auto.
        assert (HNDt : NoDup (map fst (tl_ es j))).
        { apply SSorted_NoDup, tl_sorted. eapply entries_sorted; eauto. }
        destruct (f j i) as [v|] eqn:Ef.
        -- symmetry. apply lk_In_iff; auto. apply in_tl. apply Hent. auto.
        -- symmetry. apply lk_None. intros Hin. apply in_map_iff in Hin as ([l v] & E & Hin). simpl in E; subst l.
           apply in_tl in Hin. apply Hent in Hin. destruct Hin as (_ & _ & Hin). congruence.
    + intros Hnz. unfold s_nnz at 1. simpl. rewrite Lv. unfold N, t0. simpl. unfold alloc. rewrite repeat_length.
      destruct (Nat.eqb_spec (s_nnz m) 0); [contradiction|reflexivity].
Qed.
End Transpose.
