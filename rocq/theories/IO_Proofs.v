From Verif Require Import Base BaseLemmas Dense_Model Dense_Spec Dense_Proofs Dense2_Proofs Norm_Spec Norm_Proofs IO_Model IO_Spec.

(** ** memory of a matrix as a list *)
Lemma list_nth_seq {A} (l : list A) d : l = map (fun i => nth i l d) (seq 0 (length l)).
Proof.
  apply nth_error_ext. intros i. rewrite nth_error_map, nth_error_seq. destruct (Nat.ltb_spec i (length l)).
  - cbn. now apply nth_error_nth'.
  - cbn. now apply nth_error_None.
Qed.
Lemma storage_length {T} o r c (f : nat -> nat -> T) : length (in_storage_order o r c f) = r * c.
Proof.
  rewrite storage_order_map, map_length, <- (map_length (fun p => lin o r c (fst p) (snd p))), order_lin.
  apply seq_length.
Qed.
Lemma buf_of_mat {T} (d : dense T) r c f : is_mat d r c f ->
  d_buf d = map Some (in_storage_order (d_orient d) r c f).
Proof.
  intros [W V]. pose proof W as (Hs & Hb & Hl). pose proof V as (Hr & Hc & _).
  rewrite (list_nth_seq (d_buf d) None), Hl, Hr, Hc, <- (order_lin (d_orient d)), map_map, storage_order_map, map_map.
  apply map_ext_in. intros [i j] Hin. apply in_order in Hin as [Hi Hj]. cbn [fst snd].
  pose proof (view_cell d r c f i j V Hi Hj) as E. rewrite (own_addr_lin d i j W), Hr, Hc in E. now apply nth_error_nth.
Qed.
Lemma storage_nth {T} o r c (f : nat -> nat -> T) i j : i < r -> j < c ->
  nth_error (in_storage_order o r c f) (lin o r c i j) = Some (f i j).
Proof.
  intros Hi Hj. rewrite storage_order_map.
  assert (Hin : In (i, j) (order o r c)) by now apply in_order.
  apply In_nth_error in Hin as (n & Hn).
  assert (E : nth_error (map (fun p => lin o r c (fst p) (snd p)) (order o r c)) n = Some (lin o r c i j)).
  { rewrite nth_error_map, Hn. reflexivity. }
  rewrite order_lin, nth_error_seq in E. destruct (n <? r * c); [|discriminate]. injection E as E. cbn in E. subst n.
  rewrite nth_error_map, Hn. reflexivity.
Qed.
Lemma mat_of_buf {T} (d : dense T) r c f : sh_sub (d_sh d) = false -> sh_base (d_sh d) = 0 ->
  d_rows d = r -> d_cols d = c -> d_buf d = map Some (in_storage_order (d_orient d) r c f) -> is_mat d r c f.
Proof.
  intros Hs Hb Hr Hc E.
  assert (W : wf_mem d). { split; [exact Hs|]. split; [exact Hb|]. now rewrite E, map_length, storage_length, Hr, Hc. }
  split; [exact W|]. apply view_from_cells; auto. intros i j Hi Hj.
  rewrite own_addr_lin by exact W. rewrite Hr, Hc, E, nth_error_map, storage_nth by auto. reflexivity.
Qed.

(** ** archives *)
Lemma mapM_rd_all {T} (xs : list T) : mapM (fun i => rd (map Some xs) (0 + i)) (seq 0 (length xs)) = Ok xs.
Proof.
  destruct xs as [|x0 xs']; [reflexivity|]. set (xs := x0 :: xs').
  rewrite (mapM_ok _ (fun i => nth i xs x0)).
  - f_equal. symmetry. apply list_nth_seq.
  - intros i Hi. apply in_seq in Hi. cbn [plus]. apply rd_ok. rewrite nth_error_map, (nth_error_nth' xs x0) by lia. reflexivity.
Qed.
Lemma skipn_S_cons {A} (l : list A) k x : nth_error l k = Some x -> skipn k l = x :: skipn (S k) l.
Proof.
  revert k. induction l as [|y l IH]; intros [|k] H; cbn in *; try discriminate; [congruence|]. now apply IH.
Qed.
Lemma firstn_S_snoc {A} (l : list A) k x : nth_error l k = Some x -> firstn (S k) l = firstn k l ++ [x].
Proof.
  revert k. induction l as [|y l IH]; intros [|k] H; cbn in *; try discriminate; [congruence|]. now rewrite <- IH.
Qed.
Lemma load_values_ok {T} (xs : list T) rest :
  load_values (length xs) (map TV xs ++ rest) = Ok (map Some xs, rest).
Proof.
  unfold load_values.
  destruct (forM_inv (fun i '(b, l) => do x <- get_v l; let '(v, l) := x in do b <- wr b i v; Ok (b, l))
    (fun k st => st = (map Some (firstn k xs) ++ alloc (length xs - k), map TV (skipn k xs) ++ rest))
    (length xs) (alloc (length xs), map TV xs ++ rest)) as (st & E & ->).
  - rewrite firstn_O, Nat.sub_0_r. reflexivity.
  - intros k st Hk ->. destruct (nth_error xs k) as [x|] eqn:Ex; [|apply nth_error_None in Ex; lia].
    rewrite (skipn_S_cons xs k x Ex). cbn [map app get_v bind].
    assert (Hlen : length (map Some (firstn k xs)) = k) by (rewrite map_length, firstn_length; lia).
    replace (length xs - k) with (S (length xs - S k)) by lia. cbn [alloc repeat].
    rewrite wr_ok by (rewrite app_length, Hlen; cbn; lia). cbn [bind].
    eexists. split; [reflexivity|]. f_equal.
    rewrite (firstn_S_snoc xs k x Ex), map_app, <- app_assoc. cbn [map app].
    apply nth_error_ext. intros p. destruct (Nat.eq_dec p k) as [->|Hp].
    + rewrite nth_error_upd_eq by (rewrite app_length, Hlen; cbn; lia).
      rewrite nth_error_app2 by lia. rewrite Hlen, Nat.sub_diag. reflexivity.
    + rewrite nth_error_upd_ne by auto. destruct (Nat.lt_ge_cases p k).
      * rewrite !nth_error_app1 by lia. reflexivity.
      * rewrite !nth_error_app2 by lia. rewrite Hlen. replace (p - k) with (S (p - S k)) by lia. reflexivity.
  - rewrite E. f_equal. rewrite firstn_all, Nat.sub_diag, skipn_all, app_nil_r. reflexivity.
Qed.

Lemma d_save_ok {T} (d : dense T) r c f : is_mat d r c f ->
  d_save d = Ok (TN r :: TN c :: TN (d_full d) :: TN (r * c) :: map TV (in_storage_order (d_orient d) r c f)).
Proof.
  intros M. pose proof M as [(_ & Hb & _) (Hr & Hc & _)]. unfold d_save. rewrite (buf_of_mat d r c f M), map_length, Hb.
  rewrite mapM_rd_all. cbn [bind]. now rewrite storage_length, Hr, Hc.
Qed.
Lemma d_load_ok {T} (e : dense T) (xs : list T) r c full rest :
  d_load e (TN r :: TN c :: TN full :: TN (length xs) :: map TV xs ++ rest) =
  Ok (mkDense (mkShape (d_orient e) r c (sh_sub (d_sh e)) (sh_ldr (d_sh e)) (sh_ldc (d_sh e)) 0) full (map Some xs) true, rest).
Proof. unfold d_load. cbn [get_n bind]. rewrite load_values_ok. reflexivity. Qed.

Lemma save_load {T} (d e : dense T) r c f : is_mat d r c f -> same_class d e ->
  exists l, d_save d = Ok l /\ forall rest, exists e', d_load e (l ++ rest) = Ok (e', rest) /\
    is_mat e' r c f /\ d_orient e' = d_orient d /\ d_getSize e' = d_getSize d /\ d_own e' = true.
Proof.
  intros M (Ho & Hs1 & Hs2). exists (TN r :: TN c :: TN (d_full d) :: TN (r * c) :: map TV (in_storage_order (d_orient d) r c f)).
  split; [now apply d_save_ok|]. intros rest. cbn [app].
  rewrite <- (storage_length (d_orient d) r c f). rewrite d_load_ok. eexists. split; [reflexivity|]. split; [|split; [cbn; auto|split; reflexivity]].
  apply mat_of_buf; cbn; auto. unfold d_orient at 2. cbn. fold (d_orient e). now rewrite <- Ho.
Qed.

(** ** files *)
Lemma nth_error_enum {T} (xs : list T) k k' x : nth_error (enum xs) k = Some (k', x) -> k' = k /\ nth_error xs k = Some x.
Proof.
  unfold enum. enough (Q : forall n s k, nth_error (combine (seq s n) xs) k = Some (k', x) -> k' = s + k /\ nth_error xs k = Some x)
    by (intros; now apply (Q (length xs) 0)).
  induction xs as [|y ys IH]; intros [|n] s [|q]; cbn; try discriminate.
  - injection 1 as <- <-. split; [lia|reflexivity].
  - intros Q. apply IH in Q as [-> Q]. split; [lia|exact Q].
Qed.
Lemma write_seq {T} (xs : list T) : forall (b : buf T) a, a + length xs <= length b ->
  exists b', foldM (fun '(k, x) b => wr b (a + k) x) (enum xs) b = Ok b' /\ length b' = length b /\
    forall p, nth_error b' p = if (a <=? p) && (p <? a + length xs) then option_map Some (nth_error xs (p - a)) else nth_error b p.
Proof.
  intros b a H.
  destruct (foldM_inv (fun '(k, x) b => wr b (a + k) x) (fun n b' => length b' = length b /\
     forall p, nth_error b' p = if (a <=? p) && (p <? a + n) then option_map Some (nth_error xs (p - a)) else nth_error b p)
     (enum xs) b) as (b' & E & L & G).
  - split; [reflexivity|]. intros p. destruct (Nat.leb_spec a p), (Nat.ltb_spec p (a + 0)); cbn; try lia; reflexivity.
  - intros k [k' x] s Hk [L G].
    assert (Hk2 : k' = k /\ nth_error xs k = Some x).
    { now apply nth_error_enum. }
    destruct Hk2 as [-> Ex]. assert (Hk3 : k < length xs) by (apply nth_error_Some; congruence).
    rewrite wr_ok by lia. eexists. split; [reflexivity|]. split; [now rewrite upd_length|]. intros p.
    destruct (Nat.eq_dec p (a + k)) as [->|Hp].
    + rewrite nth_error_upd_eq by lia. destruct (Nat.leb_spec a (a + k)), (Nat.ltb_spec (a + k) (a + S k)); cbn; try lia.
      replace (a + k - a) with k by lia. now rewrite Ex.
    + rewrite nth_error_upd_ne by auto. rewrite G.
      destruct (Nat.leb_spec a p), (Nat.ltb_spec p (a + k)), (Nat.ltb_spec p (a + S k)); cbn; try lia; reflexivity.
  - exists b'. split; [exact E|]. split; [exact L|]. intros p. rewrite G. unfold enum. rewrite combine_length, seq_length, Nat.min_id.
    reflexivity.
Qed.

Lemma nth_error_skipn' {A} (l : list A) n k : nth_error (skipn n l) k = nth_error l (n + k).
Proof. revert l. induction n as [|n IH]; intros [|x l]; cbn; auto. now destruct k. Qed.
Lemma nth_error_firstn' {A} (l : list A) n k : nth_error (firstn n l) k = if k <? n then nth_error l k else None.
Proof.
  destruct (Nat.ltb_spec k n).
  - revert l k H. induction n as [|n IH]; intros l k H; [lia|]. destruct l as [|x l]; [now destruct k|].
    destruct k; cbn; [reflexivity|]. apply IH. lia.
  - apply nth_error_None. rewrite firstn_length. lia.
Qed.

Lemma i_read_full {T} (file : list T) pos n (b : buf T) a : pos + n <= length file \/ n = 0 -> a + n <= length b ->
  exists b', i_read file (pos, true) n b a = Ok ((pos + n, true), b') /\ length b' = length b /\
    forall p, nth_error b' p = if (a <=? p) && (p <? a + n) then option_map Some (nth_error file (pos + (p - a))) else nth_error b p.
Proof.
  intros Hf Hb. unfold i_read. set (xs := firstn n (skipn pos file)).
  assert (L : length xs = n). { unfold xs. rewrite firstn_length, skipn_length. lia. }
  destruct (write_seq xs b a) as (b' & E & Lb & G); [lia|]. rewrite E. cbn [bind]. exists b'. rewrite L, Nat.eqb_refl.
  split; [reflexivity|]. split; [exact Lb|]. intros p. rewrite G, L.
  destruct (Nat.leb_spec a p), (Nat.ltb_spec p (a + n)); cbn; try reflexivity.
  unfold xs. rewrite nth_error_firstn'. destruct (Nat.ltb_spec (p - a) n); [|lia]. now rewrite nth_error_skipn'.
Qed.
Lemma i_read_short {T} (file : list T) pos n (b : buf T) a : length file < pos + n -> pos <= length file -> a + n <= length b ->
  exists st b', i_read file (pos, true) n b a = Ok ((st, false), b').
Proof.
  intros Hf Hp Hb. unfold i_read. set (xs := firstn n (skipn pos file)).
  assert (L : length xs < n). { unfold xs. rewrite firstn_length, skipn_length. lia. }
  destruct (write_seq xs b a) as (b' & E & Lb & G); [lia|]. rewrite E. cbn [bind].
  destruct (Nat.eqb_spec (length xs) n); [lia|]. eauto.
Qed.

Lemma resize_ok {T} (m : dense T) r c : owning m ->
  exists b, d_resize m r c = (mkDense (mkShape (d_orient m) r c false (sh_ldr (d_sh m)) (sh_ldc (d_sh m)) 0) (r * c) b true, false)
    /\ length b = r * c.
Proof.
  intros (Hs & Hb & Ho). unfold d_resize. rewrite Ho, Hs, Hb. cbn [negb]. rewrite Bool.andb_false_r.
  exists (st_resize (d_buf m) (r * c)). split; [reflexivity|]. unfold st_resize.
  destruct (Nat.eqb_spec (length (d_buf m)) (r * c)); [auto|]. apply alloc_length.
Qed.

Lemma col_mat {T} (d : dense T) r c f : sh_sub (d_sh d) = false -> sh_base (d_sh d) = 0 -> d_orient d = ColMajor ->
  d_rows d = r -> d_cols d = c -> length (d_buf d) = r * c ->
  (forall i j, i < r -> j < c -> nth_error (d_buf d) (j * r + i) = Some (Some (f i j))) -> is_mat d r c f.
Proof.
  intros Hs Hb Ho Hr Hc Hl H. assert (W : wf_mem d) by (split; [|split]; auto; congruence).
  split; [exact W|]. apply view_from_cells; auto. intros i j Hi Hj. rewrite own_addr_lin by exact W.
  rewrite Ho, Hr, Hc. unfold lin. rewrite <- (H i j Hi Hj). f_equal; lia.
Qed.

Lemma file_read_ok {T} sz (file : list T) s (m : dense T) f :
  owning m -> d_orient m = ColMajor -> window_fits s ->
  file_holds file (N.to_nat (fs_rld s)) (N.to_nat (fs_cld s)) f ->
  (0 < sz)%N -> (fs_rld s * (fs_cld s + 1) * sz < 2 ^ 63)%N ->  (fs_cld s < 2 ^ 64)%N ->
  exists e, file_read sz (Some file) s m = Ok e /\
    is_mat e (N.to_nat (fs_rows s)) (N.to_nat (fs_cols s)) (fun i j => f (N.to_nat (fs_roff s) + i) (N.to_nat (fs_coff s) + j)) /\
    d_orient e = ColMajor /\ full_ok e /\ d_own e = true.
Proof.
  intros Hm Ho [Fr Fc] HF Hsz Hbig Hc64. destruct s as [nr' nc' R' C' ro' co']. cbn [fs_rows fs_cols fs_rld fs_cld fs_roff fs_coff] in *.
  assert (HR64 : (R' < 2 ^ 63)%N) by nia.
  unfold file_read. cbn [fs_rows fs_cols fs_rld fs_cld fs_roff fs_coff].
  set (nr := N.to_nat nr'). set (nc := N.to_nat nc').
  destruct (resize_ok m nr nc Hm) as (b & E & L). rewrite E. cbn [d_sh sh_base].
  unfold w64. rewrite !N.mod_small by lia.
  destruct (N.ltb_spec R' (nr' + ro')); [lia|]. destruct (N.ltb_spec C' (nc' + co')); [lia|].
  set (R := N.to_nat R') in *. set (C := N.to_nat C') in *. set (ro := N.to_nat ro'). set (co := N.to_nat co').
  assert (Hr : ro + nr <= R) by lia. assert (Hc : co + nc <= C) by lia.
  destruct ((nc' =? C')%N && (nr' =? R')%N) eqn:Ew.
  - apply Bool.andb_true_iff in Ew as [Ec Er]. apply N.eqb_eq in Ec, Er.
    assert (ro = 0 /\ co = 0 /\ nr = R /\ nc = C) as (-> & -> & EnR & EnC) by lia.
    destruct (i_read_full file 0 (nr * nc) b 0) as (b' & Eb & Lb & G).
    { destruct (Nat.eq_dec (nr * nc) 0) as [|Hn]; [now right|left]. cbn [plus].
      assert (nr <> 0 /\ nc <> 0) as [Hn1 Hn2] by nia.
      specialize (HF (nr - 1) (nc - 1) ltac:(lia) ltac:(lia)). rewrite <- EnR in HF.
      assert ((nc - 1) * nr + (nr - 1) < length file) by (apply nth_error_Some; congruence). nia. }
    { lia. }
    cbn [d_buf]. rewrite Eb. cbn [bind snd]. eexists. split; [reflexivity|]. split; [|split; [exact Ho|split; reflexivity]].
    apply col_mat; cbn; auto; [lia|]. intros i j Hi Hj. rewrite G.
    assert (j * nr + i < nr * nc) by nia.
    destruct (Nat.leb_spec 0 (j * nr + i)); [|lia]. destruct (Nat.ltb_spec (j * nr + i) (0 + nr * nc)); [|lia]. cbn [andb].
    replace (0 + (j * nr + i - 0)) with (j * R + i) by (rewrite EnR; lia). rewrite HF by lia. reflexivity.
  - assert (H1 : ((2 ^ 63 <=? (co' * R' + ro') * sz)%N || (2 ^ 63 <=? R' * sz)%N) = false).
    { apply Bool.orb_false_iff. split; apply N.leb_gt; nia. }
    rewrite H1. clear H1. cbn [i_seek d_buf].
    replace (N.to_nat (co' * R' + ro')) with (co * R + ro) by lia.
    match goal with |- context [forM nc ?g ?s] =>
      destruct (forM_inv g (fun col st => exists b', st = (((co + col) * R + ro, true), b') /\ length b' = nr * nc /\
         forall i j, i < nr -> j < col -> nth_error b' (j * nr + i) = Some (Some (f (ro + i) (co + j)))) nc s)
      as (st & Est & b' & -> & Lb & G) end.
    + exists b. cbn [plus]. rewrite Nat.add_0_r. split; [reflexivity|]. split; [exact L|]. intros; lia.
    + intros col st Hcol (b1 & -> & L1 & G1). cbn [plus].
      destruct (i_read_full file ((co + col) * R + ro) nr b1 (col * nr)) as (b2 & E2 & L2 & G2).
      { destruct (Nat.eq_dec nr 0) as [|Hn]; [now right|left].
        specialize (HF (ro + (nr - 1)) (co + col) ltac:(lia) ltac:(lia)).
        assert ((co + col) * R + (ro + (nr - 1)) < length file) by (apply nth_error_Some; congruence). lia. }
      { nia. }
      rewrite E2. cbn [bind i_seek]. eexists. split; [reflexivity|]. exists b2. split; [|split; [lia|]].
      * f_equal. f_equal. replace (R - nr) with (R - nr) by lia. nia.
      * intros i j Hi Hj. rewrite G2. destruct (Nat.eq_dec j col) as [->|Hne].
        -- destruct (Nat.leb_spec (col * nr) (col * nr + i)); [|lia].
           destruct (Nat.ltb_spec (col * nr + i) (col * nr + nr)); [|lia]. cbn [andb].
           replace ((co + col) * R + ro + (col * nr + i - col * nr)) with ((co + col) * R + (ro + i)) by lia.
           rewrite HF by lia. reflexivity.
        -- destruct (Nat.leb_spec (col * nr) (j * nr + i)); [nia|]. cbn [andb]. apply G1; lia.
    + rewrite Est. cbn [bind snd]. eexists. split; [reflexivity|]. split; [|split; [exact Ho|split; reflexivity]].
      apply col_mat; cbn; auto.
Qed.

Lemma raw_write_ok {T} (d : dense T) r c f : is_mat d r c f -> full_ok d ->
  raw_write d = Ok (in_storage_order (d_orient d) r c f).
Proof.
  intros M HF. pose proof M as [(_ & Hb & _) (Hr & Hc & _)]. unfold raw_write. unfold full_ok, d_getSize in HF.
  rewrite HF, Hr, Hc, (buf_of_mat d r c f M), Hb, <- (storage_length (d_orient d) r c f). apply mapM_rd_all.
Qed.
Lemma storage_holds {T} r c (f : nat -> nat -> T) : file_holds (in_storage_order ColMajor r c f) r c f.
Proof.
  intros i j Hi Hj. replace (j * r + i) with (lin ColMajor r c i j) by (unfold lin; lia). now apply storage_nth.
Qed.
Lemma import_ok {T} (file : list T) r c f : file_holds file r c f -> 
  exists e, import_raw (Some (r, c)) (Some file) = Ok e /\ is_mat e r c f /\ d_orient e = ColMajor /\ full_ok e /\ d_own e = true.
Proof.
  intros HF. unfold import_raw.
  destruct (i_read_full file 0 (r * c) (d_buf (@d_new T ColMajor r c)) 0) as (b' & Eb & Lb & G).
  { destruct (Nat.eq_dec (r * c) 0) as [|Hn]; [now right|left]. assert (r <> 0 /\ c <> 0) as [H1 H2] by nia.
    specialize (HF (r - 1) (c - 1) ltac:(lia) ltac:(lia)).
    assert ((c - 1) * r + (r - 1) < length file) by (apply nth_error_Some; congruence). nia. }
  { cbn. rewrite alloc_length. lia. }
  rewrite Eb. cbn [bind snd]. eexists. split; [reflexivity|]. split; [|split; [reflexivity|split; reflexivity]].
  apply col_mat; cbn; auto.
  - rewrite Lb. cbn. apply alloc_length.
  - intros i j Hi Hj. rewrite G. assert (j * r + i < r * c) by nia.
    destruct (Nat.leb_spec 0 (j * r + i)); [|lia]. destruct (Nat.ltb_spec (j * r + i) (0 + r * c)); [|lia]. cbn [andb].
    replace (0 + (j * r + i - 0)) with (j * r + i) by lia. rewrite HF by lia. reflexivity.
Qed.
Lemma import_short {T} (file : list T) r c : length file < r * c -> import_raw (Some (r, c)) (Some file) = Throw.
Proof.
  intros H. unfold import_raw.
  destruct (i_read_short file 0 (r * c) (d_buf (@d_new T ColMajor r c)) 0) as (st & b' & E); [lia|lia|cbn; rewrite alloc_length; lia|].
  rewrite E. reflexivity.
Qed.
