(** Proofs about the BLAS adapters and the ring reading of the products. *)
From Coq Require Import Sorting.Sorted.
From Verif Require Import Base BaseLemmas Dense_Model Dense_Spec Dense_Proofs Striped_Proofs Dense2_Proofs
  Sparse_Model Sparse_Spec Sparse_Proofs Sparse2_Proofs Sparse3_Proofs Sparse4_Proofs SparseT_Proofs SparseP_Proofs
  Mult_Model Mult_Spec Mult_Proofs Mult2_Proofs.

(** ** Products over a ring *)
Section Ring.
Context {T : Type} `{SC : Scalar T} `{RL : @RingLaws T SC}.

Lemma add0r (x : T) : sadd x s0 = x.
Proof. rewrite r_addC. apply r_add0l. Qed.

Lemma prod_at_ring n (f g : nat -> nat -> T) i j : prod_at s_fma s0 n f g i j = mat_prod n f g i j.
Proof.
  unfold prod_at, mat_prod. induction n as [|n IH]; [reflexivity|].
  rewrite seq_S, fold_left_app, IH. reflexivity.
Qed.
Lemma prod_ss_ring n (f g : nat -> nat -> option T) i j :
  prod_ss_at s_fma s0 n f g i j = mat_prod n (fun i j => dflt s0 (f i j)) (fun i j => dflt s0 (g i j)) i j.
Proof.
  unfold prod_ss_at, mat_prod. induction n as [|n IH]; [reflexivity|].
  rewrite seq_S, fold_left_app, IH. cbn [fold_left Nat.add sum_n].
  destruct (f i n), (g n j); cbn [dflt]; try rewrite r_mul0l; try rewrite r_mul0r; try rewrite add0r; reflexivity.
Qed.
Lemma prod_sd_ring n (f : nat -> nat -> option T) (g : nat -> nat -> T) i j :
  prod_sd_at s_fma s0 n f g i j = mat_prod n (fun i j => dflt s0 (f i j)) g i j.
Proof.
  unfold prod_sd_at, mat_prod. induction n as [|n IH]; [reflexivity|].
  rewrite seq_S, fold_left_app, IH. cbn [fold_left Nat.add sum_n].
  destruct (f i n); cbn [dflt]; try rewrite r_mul0l; try rewrite add0r; reflexivity.
Qed.
Lemma prod_ds_ring n (f : nat -> nat -> T) (g : nat -> nat -> option T) i j :
  prod_ds_at s_fma s0 n f g i j = mat_prod n f (fun i j => dflt s0 (g i j)) i j.
Proof.
  unfold prod_ds_at, mat_prod. induction n as [|n IH]; [reflexivity|].
  rewrite seq_S, fold_left_app, IH. cbn [fold_left Nat.add sum_n].
  destruct (g n j); cbn [dflt]; try rewrite r_mul0r; try rewrite add0r; reflexivity.
Qed.
End Ring.

(** ** Loops storing one value per cell *)
Lemma loop_writes {T X} (a : X -> nat) (F : X -> res T) (v : X -> T) l (b : buf T) :
  NoDup (map a l) -> (forall x, In x l -> a x < length b) -> (forall x, In x l -> F x = Ok (v x)) ->
  exists b', foldM (fun x b => do y <- F x; wr b (a x) y) l b = Ok b' /\ length b' = length b /\
    (forall x, In x l -> nth_error b' (a x) = Some (Some (v x))).
Proof.
  intros ND Hb HF.
  destruct (writes_ok (map (fun x => (a x, Some (v x))) l) b) as (b' & E & L & H & _).
  { intros p c Hin. apply in_map_iff in Hin as (x & Ex & Hx). injection Ex as <- <-. auto. }
  exists b'. split; [|split; [exact L|]].
  - rewrite <- E. unfold writes. rewrite foldM_map. apply foldM_ext. intros x s Hx. rewrite HF by auto. reflexivity.
  - intros x Hx. apply H.
    + rewrite map_map. exact ND.
    + apply in_map_iff. exists x; auto.
Qed.

Lemma forM2_pairs {S} (f : nat -> nat -> S -> res S) m n s :
  forM m (fun i s => forM n (fun j s => f i j s) s) s = foldM (fun p s => f (fst p) (snd p) s) (pairs m n) s.
Proof.
  unfold forM, pairs. rewrite foldM_flat_map. apply foldM_ext. intros i s' _. rewrite foldM_map. reflexivity.
Qed.

Lemma lin_inj m i j i' j' : i < m -> i' < m -> i + j * m = i' + j' * m -> i = i' /\ j = j'.
Proof.
  intros Hi Hi' E. assert (j = j').
  { destruct (Nat.lt_trichotomy j j') as [H|[H|H]]; auto; exfalso; nia. }
  subst. split; auto. lia.
Qed.

Lemma col_store {T} (c0 : dense T) m l (F : nat -> nat -> res T) (v : nat -> nat -> T) ps :
  wf_mem c0 -> d_rows c0 = m -> d_cols c0 = l -> full_ok c0 -> d_orient c0 = ColMajor -> d_own c0 = true ->
  NoDup ps -> (forall i j, In (i, j) ps <-> i < m /\ j < l) ->
  (forall i j, i < m -> j < l -> F i j = Ok (v i j)) ->
  exists b', foldM (fun p b => do y <- F (fst p) (snd p); wr b (fst p + snd p * m) y) ps (d_buf c0) = Ok b' /\
    is_mat (with_buf c0 b') m l v /\ full_ok (with_buf c0 b') /\ d_orient (with_buf c0 b') = ColMajor /\ d_own (with_buf c0 b') = true.
Proof.
  intros W R C FU O N ND Hps HF.
  destruct (loop_writes (fun p => fst p + snd p * m) (fun p => F (fst p) (snd p)) (fun p => v (fst p) (snd p)) ps (d_buf c0))
    as (b' & E & L & H).
  - apply NoDup_map_inj; auto. intros [i j] [i' j'] H1 H2 E. cbn [fst snd] in E.
    apply Hps in H1, H2. destruct (lin_inj m i j i' j'); try lia. congruence.
  - intros [i j] Hin. apply Hps in Hin. cbn [fst snd]. destruct W as (_ & _ & ->). rewrite R, C. nia.
  - intros [i j] Hin. apply Hps in Hin. apply HF; tauto.
  - exists b'. split; [exact E|]. split; [|repeat split; auto].
    split; [now apply with_buf_wf|]. apply view_from_cells; auto. intros i j Hi Hj.
    cbn [with_buf d_sh d_buf]. rewrite (col_addr c0) by auto. destruct W as (_ & -> & _). rewrite R.
    apply (H (i, j)). now apply Hps.
Qed.

Lemma to_int_small n : (Z.of_nat n < 2 ^ 31)%Z -> to_int n = Z.of_nat n.
Proof.
  intros H. unfold to_int. rewrite Z.mod_small by lia.
  destruct (Z.ltb_spec (Z.of_nat n) (2 ^ 31)); lia.
Qed.

(** ** gemm *)
Lemma mul_blas_spec {T} (dot : list (T * T) -> T) dbg (a b c : dense T) m n l fa fb :
  is_mat a m n fa -> d_orient a = ColMajor -> is_mat b n l fb -> d_orient b = ColMajor ->
  fresh_ok c -> d_orient c = ColMajor -> 1 <= n ->
  (Z.of_nat m < 2 ^ 31)%Z -> (Z.of_nat n < 2 ^ 31)%Z -> (Z.of_nat l < 2 ^ 31)%Z ->
  exists d, mul_blas dot dbg a b c = Ok d /\
    is_mat d m l (fun i j => dot (map (fun k => (fa i k, fb k j)) (seq 0 n))) /\
    full_ok d /\ d_orient d = ColMajor /\ d_own d = true.
Proof.
  intros [Wa Va] Oa [Wb Vb] Ob Hf Oc Hn Bm Bn Bl. pose proof Va as (Ra & Ca & _). pose proof Vb as (Rb & Cb & _).
  unfold mul_blas, cassert. rewrite Ca, Rb, Nat.eqb_refl, andb_false_r. cbn [bind].
  destruct (resize_shape c (d_rows a) (d_cols b) Hf) as (c0 & E0 & W0 & R0 & C0 & F0 & O0 & N0).
  rewrite E0, Ra, Cb in *. rewrite Oc in O0. rewrite !to_int_small by auto.
  unfold gemm.
  destruct (Nat.eq_dec m 0) as [Em|Hm].
  { rewrite Em in *. replace (Z.of_nat 0 <? Z.max 1 (Z.of_nat 0))%Z with true by reflexivity.
    rewrite !orb_true_r. cbn [orb bind]. exists (with_buf c0 (d_buf c0)).
    split; [reflexivity|]. split; [|repeat split; auto].
    split; [now apply with_buf_wf|]. apply view_from_cells; auto. intros; lia. }
  destruct (Z.ltb_spec (Z.of_nat m) 0); [lia|]. destruct (Z.ltb_spec (Z.of_nat l) 0); [lia|].
  destruct (Z.ltb_spec (Z.of_nat n) 0); [lia|]. destruct (Z.ltb_spec (Z.of_nat m) (Z.max 1 (Z.of_nat m))); [lia|].
  destruct (Z.ltb_spec (Z.of_nat n) (Z.max 1 (Z.of_nat n))); [lia|]. cbn [orb]. rewrite !Nat2Z.id. cbv zeta.
  destruct (col_store c0 m l (fun i j => do ps <- mapM (fun q =>
            do x <- rd (d_buf a) (i + q * m); do y <- rd (d_buf b) (q + j * n); Ok (x, y)) (seq 0 n); Ok (dot ps))
     (fun i j => dot (map (fun k => (fa i k, fb k j)) (seq 0 n))) (map (fun p => (snd p, fst p)) (pairs l m)))
    as (b' & E & M & FU & O & N); auto.
  - apply NoDup_map_inj; [apply NoDup_pairs|]. intros [x y] [x' y'] _ _ E. now inversion E.
  - intros i j. rewrite in_map_iff. split.
    + intros ([x y] & E & Hin). apply in_pairs in Hin. cbn [fst snd] in E. injection E as <- <-. lia.
    + intros [Hi Hj]. exists (j, i). split; auto. apply in_pairs. lia.
  - intros i j Hi Hj. rewrite (mapM_ok _ (fun q => (fa i q, fb q j))); [reflexivity|].
    intros q Hq. apply in_seq in Hq.
    pose proof (view_cell a m n fa i q Va Hi ltac:(lia)) as E1. rewrite (col_addr a) in E1 by auto.
    destruct Wa as (_ & Ba & _). rewrite Ba, Ra in E1. apply rd_ok in E1. rewrite Nat.add_0_l in E1. rewrite E1. cbn [bind].
    pose proof (view_cell b n l fb q j Vb ltac:(lia) Hj) as E2. rewrite (col_addr b) in E2 by auto.
    destruct Wb as (_ & Bb & _). rewrite Bb, Rb in E2. apply rd_ok in E2. rewrite Nat.add_0_l in E2. rewrite E2. reflexivity.
  - exists (with_buf c0 b'). split; [|auto].
    rewrite forM2_pairs. rewrite foldM_map in E. 
    match goal with |- bind (foldM ?f ?l ?s) _ = _ => replace (foldM f l s) with (Ok b') end; [reflexivity|].
    rewrite <- E. apply foldM_ext. intros [j i] s _. cbn [fst snd]. rewrite bind_assoc. reflexivity.
Qed.

(** ** Mixed precision *)
Lemma mul_mixed_fd_spec {F D} (toF : D -> F) (toD : F -> D) dot dbg (a : dense F) (b : dense D) m n l fa fb :
  is_mat a m n fa -> d_orient a = ColMajor -> is_mat b n l fb -> d_orient b = ColMajor -> 1 <= n ->
  (Z.of_nat m < 2 ^ 31)%Z -> (Z.of_nat n < 2 ^ 31)%Z -> (Z.of_nat l < 2 ^ 31)%Z ->
  exists d, mul_mixed_fd toF toD dot dbg a b = Ok d /\
    is_mat d m l (fun i j => toD (dot (map (fun k => (fa i k, toF (fb k j))) (seq 0 n)))) /\
    full_ok d /\ d_orient d = ColMajor /\ d_own d = true.
Proof.
  intros Ma Oa Mb Ob Hn B1 B2 B3. unfold mul_mixed_fd.
  destruct (conv_same_spec toF b n l fb Mb) as (Mb' & Ob' & _ & _). rewrite Ob in Ob'.
  destruct (mul_blas_spec dot dbg a (d_conv_same toF b) (d_default (d_orient a)) m n l fa _ Ma Oa Mb' Ob')
    as (fc & E & Mc & _ & Oc & _); auto.
  { apply default_fresh. }
  rewrite E. cbn [bind]. destruct (conv_same_spec toD fc m l _ Mc) as (Md & Od & Fd & Nd).
  eexists; split; [reflexivity|]. split; [exact Md|]. rewrite Od. auto.
Qed.
Lemma mul_mixed_df_spec {F D} (toF : D -> F) (toD : F -> D) dot dbg (a : dense D) (b : dense F) m n l fa fb :
  is_mat a m n fa -> d_orient a = ColMajor -> is_mat b n l fb -> d_orient b = ColMajor -> 1 <= n ->
  (Z.of_nat m < 2 ^ 31)%Z -> (Z.of_nat n < 2 ^ 31)%Z -> (Z.of_nat l < 2 ^ 31)%Z ->
  exists d, mul_mixed_df toF toD dot dbg a b = Ok d /\
    is_mat d m l (fun i j => toD (dot (map (fun k => (toF (fa i k), fb k j)) (seq 0 n)))) /\
    full_ok d /\ d_orient d = ColMajor /\ d_own d = true.
Proof.
  intros Ma Oa Mb Ob Hn B1 B2 B3. unfold mul_mixed_df.
  destruct (conv_same_spec toF a m n fa Ma) as (Ma' & Oa' & _ & _). rewrite Oa in Oa'.
  destruct (mul_blas_spec dot dbg (d_conv_same toF a) b (d_default (d_orient a)) m n l _ fb Ma' Oa' Mb Ob)
    as (fc & E & Mc & _ & Oc & _); auto.
  { apply default_fresh. }
  rewrite E. cbn [bind]. destruct (conv_same_spec toD fc m l _ Mc) as (Md & Od & Fd & Nd).
  eexists; split; [reflexivity|]. split; [exact Md|]. rewrite Od. auto.
Qed.

(** ** csrmm *)
Lemma mapM_seq_nth {A B} (f : nat -> res B) (g : A -> B) (line : list A) : forall s,
  (forall q e, nth_error line q = Some e -> f (s + q) = Ok (g e)) ->
  mapM f (seq s (length line)) = Ok (map g line).
Proof.
  induction line as [|e t IH]; intros s H; [reflexivity|]. cbn [length seq mapM map].
  pose proof (H 0 e eq_refl) as E. rewrite Nat.add_0_r in E. rewrite E. cbn [bind].
  rewrite (IH (S s)); [reflexivity|]. intros q x Hq. rewrite <- (H (S q) x Hq). f_equal. lia.
Qed.

Lemma line_sorted_list {T} maj (line : list (nat * T)) : line_ok maj line ->
  line = flat_map (fun k => match lk k line with Some x => [(k, x)] | None => [] end) (seq 0 maj).
Proof.
  intros H. pose proof (line_fold_sorted (fun (acc : list (nat * T)) k x => acc ++ [(k, x)]) maj line H []) as E.
  assert (G1 : forall (l : list (nat * T)) acc, fold_left (fun v e => v ++ [(fst e, snd e)]) l acc = acc ++ l).
  { induction l as [|[k x] t IH]; intros acc; cbn [fold_left fst snd]; [now rewrite app_nil_r|].
    rewrite IH, <- app_assoc. reflexivity. }
  rewrite G1 in E. cbn [app] in E.
  assert (G2 : forall ks acc, fold_left (fun v k => match lk k line with Some x => v ++ [(k, x)] | None => v end) ks acc
     = acc ++ flat_map (fun k => match lk k line with Some x => [(k, x)] | None => [] end) ks).
  { induction ks as [|k t IH]; intros acc; cbn [fold_left flat_map]; [now rewrite app_nil_r|].
    rewrite IH. destruct (lk k line); cbn [app]; [now rewrite <- app_assoc|reflexivity]. }
  rewrite G2 in E. exact E.
Qed.

Lemma map_flat_map {A B C} (g : B -> C) (f : A -> list B) l : map g (flat_map f l) = flat_map (fun x => map g (f x)) l.
Proof. induction l as [|x t IH]; simpl; auto. now rewrite map_app, IH. Qed.
Lemma flat_map_ext_in {A B} (f g : A -> list B) l : (forall x, In x l -> f x = g x) -> flat_map f l = flat_map g l.
Proof.
  induction l as [|x t IH]; intros H; simpl; auto. rewrite H by (now left). f_equal. apply IH. intros; apply H; now right.
Qed.

Lemma rd_map_opt {A B} (g : A -> B) (b : buf A) i x : rd b i = Ok x -> rd (map (option_map g) b) i = Ok (g x).
Proof. intros H. apply rd_ok in H. apply rd_ok. rewrite nth_error_map, H. reflexivity. Qed.

Lemma mul_csrmm_spec {T} (dot : list (T * T) -> T) dbg (a : sparse T) (b c : dense T) m n l fa fb :
  sp_mat a m n fa -> s_o a = ColMajor -> is_mat b n l fb -> d_orient b = ColMajor ->
  fresh_ok c -> d_orient c = ColMajor -> 1 <= m ->
  (Z.of_nat m < 2 ^ 31)%Z -> (Z.of_nat n + 1 < 2 ^ 31)%Z -> (Z.of_nat l < 2 ^ 31)%Z -> (Z.of_nat (m * n) + 1 < 2 ^ 31)%Z ->
  exists d, mul_csrmm dot dbg a b c = Ok d /\
    is_mat d m l (fun i j => dot (flat_map (fun k => match fa i k with Some x => [(x, fb k j)] | None => [] end) (seq 0 n))) /\
    full_ok d /\ d_orient d = ColMajor /\ d_own d = true.
Proof.
  intros Ha Oa [Wb Vb] Ob Hf Oc Hm Bm Bn Bl Bmn. pose proof Ha as (_ & Ra & Ca & _). pose proof Vb as (Rb & Cb & _).
  unfold mul_csrmm, cassert. rewrite Ca, Rb, Nat.eqb_refl, andb_false_r. cbn [bind].
  destruct (resize_shape c (s_rows a) (d_cols b) Hf) as (c0 & E0 & W0 & R0 & C0 & F0 & O0 & N0).
  rewrite E0, Ra, Cb in *. rewrite Oc in O0.
  destruct (s_conv_to_row (fun x : T => x) a m n fa Ha Oa Hm) as (t & Et & Ot & Mt). rewrite Et. cbn [bind].
  rewrite !to_int_small by lia.
  apply sp_mat_lines in Mt as (Rt & Ct & _ & L & HR & HL & HO & Hd).
  assert (Mi : s_minor t = m) by (unfold s_minor; now rewrite Ot).
  assert (Ma : s_major t = n) by (unfold s_major; now rewrite Ot).
  rewrite Mi in HL. rewrite Ma in HO.
  assert (Hlen : length (concat L) <= m * n) by (rewrite <- HL; now apply lines_len).
  assert (Hoff : forall i, i <= m -> rd (map (option_map (fun k => to_int (S k))) (s_off t)) i = Ok (Z.of_nat (S (start L i)))).
  { intros i Hi. rewrite <- to_int_small by (pose proof (start_le L i); lia).
    apply (rd_map_opt (fun k => to_int (S k))). apply (repr_off t L HR). lia. }
  unfold csrmm. rewrite !Nat2Z.id. cbv zeta. rewrite (Hoff 0) by lia. cbn [bind].
  set (F := fun i j => do pb <- Ok (Z.of_nat (S (start L i))); do pe <- Ok (Z.of_nat (S (start L (S i))));
      do ps <- mapM (fun p =>
          do x <- rd (s_val t) p;
          do q <- rd (map (option_map (fun k => to_int (S k))) (s_key t)) p;
          do y <- rdz (d_buf b) (q - 1 + Z.of_nat (j * n))%Z;
          Ok (x, y)) (seq (Z.to_nat (pb - Z.of_nat (S (start L 0)))) (Z.to_nat (pe - pb))); Ok (dot ps)).
  destruct (col_store c0 m l F
     (fun i j => dot (flat_map (fun k => match fa i k with Some x => [(x, fb k j)] | None => [] end) (seq 0 n)))
     (pairs m l))
    as (b' & E & M & FU & O & N); auto.
  - apply NoDup_pairs.
  - intros i j. apply in_pairs.
  - intros i j Hi Hj. unfold F. cbn [bind].
    assert (Hn : nth_error L i = Some (nth i L [])) by (apply nth_error_nth'; lia).
    rewrite (start_S L i _ Hn). replace (Z.to_nat (Z.of_nat (S (start L i)) - Z.of_nat (S (start L 0)))) with (start L i).
    2:{ change (start L 0) with 0. lia. }
    replace (Z.to_nat (Z.of_nat (S (start L i + length (nth i L []))) - Z.of_nat (S (start L i)))) with (length (nth i L [])) by lia.
    pose proof (line_ok_nth n L i HO) as Hok.
    rewrite (mapM_seq_nth _ (fun e => (snd e, fb (fst e) j))).
    + cbn [bind]. f_equal. f_equal. rewrite (line_sorted_list n _ Hok), map_flat_map. apply flat_map_ext_in.
      intros k Hk. apply in_seq in Hk. pose proof (Hd i k ltac:(lia) ltac:(lia)) as Hik.
      unfold line_of, key_of in Hik. rewrite Ot in Hik. rewrite <- Hik.
      destruct (fa i k); reflexivity.
    + intros q [k x] Hq. cbn [fst snd].
      assert (Hk : k < n).
      { destruct Hok as [_ HF]. eapply Forall_forall in HF; [exact HF|]. apply in_map_iff. exists (k, x). split; auto.
        eapply nth_error_In; eauto. }
      rewrite (repr_val t L HR i _ q k x Hn Hq). cbn [bind].
      erewrite (rd_map_opt (fun k => to_int (S k)) (s_key t)) by (apply (repr_key t L HR i _ q k x Hn Hq)). cbn [bind].
      rewrite to_int_small by lia. replace (Z.of_nat (S k) - 1 + Z.of_nat (j * n))%Z with (Z.of_nat (k + j * n)) by lia.
      rewrite rdz_nat. pose proof (view_cell b n l fb k j Vb Hk Hj) as E2. rewrite (col_addr b) in E2 by auto.
      destruct Wb as (_ & Bb & _). rewrite Bb, Rb in E2. apply rd_ok in E2. rewrite Nat.add_0_l in E2. rewrite E2. reflexivity.
  - exists (with_buf c0 b'). split; [|auto].
    match goal with |- bind (forM m ?f ?s) _ = _ => replace (forM m f s) with (Ok b') end; [reflexivity|].
    pose proof (forM2_pairs (fun i j b => do y <- F i j; wr b (i + j * m) y) m l (d_buf c0)) as P. cbv beta in P.
    rewrite <- E, <- P. apply foldM_ext. intros i s Hi. apply in_seq in Hi.
    rewrite !Hoff by lia. cbn [bind]. apply foldM_ext. intros j s' _. unfold F. cbn [bind]. rewrite bind_assoc. reflexivity.
Qed.
