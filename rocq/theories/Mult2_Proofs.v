(** Proofs about the products with sparse operands. *)
From Coq Require Import Sorting.Sorted.
From Verif Require Import Base BaseLemmas Dense_Model Dense_Spec Dense_Proofs Striped_Proofs Dense2_Proofs
  Sparse_Model Sparse_Spec Sparse_Proofs Sparse2_Proofs Sparse3_Proofs Sparse4_Proofs Mult_Model Mult_Spec Mult_Proofs.

(** ** Folds over the entries of a compressed matrix *)
Lemma fold_left_flat_map {A B X} (f : A -> X -> A) (g : B -> list X) l a :
  fold_left f (flat_map g l) a = fold_left (fun a b => fold_left f (g b) a) l a.
Proof. revert a; induction l as [|b t IH]; intros a; simpl; auto. now rewrite fold_left_app, IH. Qed.
Lemma fold_left_map {A B X} (f : A -> X -> A) (g : B -> X) l a :
  fold_left f (map g l) a = fold_left (fun a b => f a (g b)) l a.
Proof. revert a; induction l as [|b t IH]; intros a; simpl; auto. Qed.

Lemma entries_fold {T A} (F : A -> nat -> nat -> T -> A) (L : list (list (nat * T))) z :
  fold_left (fun v e => F v (fst (fst e)) (snd (fst e)) (snd e)) (entries L) z =
  fold_left (fun v l => fold_left (fun v e => F v l (fst e) (snd e)) (nth l L []) v) (seq 0 (length L)) z.
Proof.
  unfold entries. rewrite fold_left_flat_map, enum_from_seq.
  assert (Hg : forall L2 q z, (exists L1, L = L1 ++ L2 /\ length L1 = q) ->
     fold_left (fun a b => fold_left (fun v e => F v (fst (fst e)) (snd (fst e)) (snd e))
        (let '(l, line) := b in map (fun e => (l, fst e, snd e)) line) a) (combine (seq q (length L2)) L2) z =
     fold_left (fun v l => fold_left (fun v e => F v l (fst e) (snd e)) (nth l L []) v) (seq q (length L2)) z).
  { induction L2 as [|line t IH]; intros q z' (L1 & EL & Hq); [reflexivity|].
    cbn [length seq combine fold_left].
    assert (Hn : nth q L [] = line).
    { rewrite EL, app_nth2 by lia. now rewrite Hq, Nat.sub_diag. }
    rewrite Hn, fold_left_map. apply IH. exists (L1 ++ [line]). rewrite <- app_assoc, app_length. simpl. split; auto. lia. }
  apply Hg. exists []; auto.
Qed.

(** At most one entry of a line has a given key. *)
Lemma line_fold_key {T A} (F : A -> T -> A) (line : list (nat * T)) i : NoDup (map fst line) -> forall z,
  fold_left (fun v e => if i =? fst e then F v (snd e) else v) line z =
  match lk i line with Some x => F z x | None => z end.
Proof.
  induction line as [|[k x] t IH]; intros ND z; [reflexivity|]. cbn [map fst] in ND. inversion ND; subst.
  cbn [fold_left fst snd]. rewrite lk_cons. rewrite IH by auto. rewrite (Nat.eqb_sym k i).
  destruct (Nat.eqb_spec i k) as [->|]; auto. now rewrite lk_None.
Qed.

(** A sorted line read entry by entry, or index by index. *)
Lemma line_fold_sorted {T A} (F : A -> nat -> T -> A) maj (line : list (nat * T)) : line_ok maj line -> forall z,
  fold_left (fun v e => F v (fst e) (snd e)) line z =
  fold_left (fun v k => match lk k line with Some x => F v k x | None => v end) (seq 0 maj) z.
Proof.
  intros [HS HF].
  assert (G : forall n s line, StronglySorted lt (map fst line) -> Forall (fun k => s <= k < s + n) (map fst line) -> forall z,
    fold_left (fun v e => F v (fst e) (snd e)) line z =
    fold_left (fun v k => match lk k line with Some x => F v k x | None => v end) (seq s n) z).
  { clear. induction n as [|n IH]; intros s line HS HF z.
    - destruct line as [|[k x] t]; [reflexivity|]. inversion HF; subst. simpl in *; lia.
    - cbn [seq fold_left]. destruct line as [|[k x] t].
      + symmetry. apply fold_left_id. reflexivity.
      + inversion HS as [|? ? HS' HL]; subst. inversion HF as [|? ? Hk HF']; subst. cbn [map fst] in *.
        rewrite lk_cons. destruct (Nat.eqb_spec k s) as [->|Hne].
        * cbn [fold_left fst snd]. rewrite (IH (S s) t).
          -- apply fold_left_ext. intros k' v Hk'. apply in_seq in Hk'. rewrite lk_cons.
             destruct (Nat.eqb_spec s k'); [lia|reflexivity].
          -- exact HS'.
          -- apply Forall_forall. intros y Hy. pose proof (proj1 (Forall_forall _ _) HF' y Hy).
             pose proof (proj1 (Forall_forall _ _) HL y Hy). simpl in *. lia.
        * assert (lk s t = None) as ->.
          { apply lk_lt. apply Forall_forall. intros y Hy.
            pose proof (proj1 (Forall_forall _ _) HL y Hy). simpl in *. lia. }
          apply IH; auto. constructor; [simpl in *; lia|]. apply Forall_forall. intros y Hy.
          pose proof (proj1 (Forall_forall _ _) HF' y Hy). pose proof (proj1 (Forall_forall _ _) HL y Hy). simpl in *; lia. }
  intros z. apply G; auto. apply Forall_forall. intros y Hy. pose proof (proj1 (Forall_forall _ _) HF y Hy). simpl in *; lia.
Qed.

Lemma line_ok_nth {T} maj (L : list (list (nat * T))) l : lines_ok maj L -> line_ok maj (nth l L []).
Proof.
  intros H. destruct (Nat.lt_ge_cases l (length L)) as [Hl|Hl].
  - eapply Forall_forall in H; [exact H|]. now apply nth_In.
  - rewrite nth_overflow by auto. split; constructor.
Qed.

Lemma entries_fold_key {T A} (F : A -> nat -> T -> A) maj (L : list (list (nat * T))) i z : lines_ok maj L ->
  fold_left (fun v e => if i =? snd (fst e) then F v (fst (fst e)) (snd e) else v) (entries L) z =
  fold_left (fun v l => match lk i (nth l L []) with Some x => F v l x | None => v end) (seq 0 (length L)) z.
Proof.
  intros H. rewrite (entries_fold (fun v l k x => if i =? k then F v l x else v)).
  apply fold_left_ext. intros l v _. rewrite (line_fold_key (fun v x => F v l x)); auto.
  apply SSorted_NoDup. eapply line_ok_nth; eauto.
Qed.

Lemma entries_fold_line {T A} (F : A -> nat -> T -> A) maj (L : list (list (nat * T))) j z : lines_ok maj L -> j < length L ->
  fold_left (fun v e => if j =? fst (fst e) then F v (snd (fst e)) (snd e) else v) (entries L) z =
  fold_left (fun v k => match lk k (nth j L []) with Some x => F v k x | None => v end) (seq 0 maj) z.
Proof.
  intros H Hj. rewrite (entries_fold (fun v l k x => if j =? l then F v k x else v)).
  rewrite (fold_left_one (fun l v => fold_left (fun v e => if j =? l then F v (fst e) (snd e) else v) (nth l L []) v) (length L) j z Hj).
  - rewrite Nat.eqb_refl. apply line_fold_sorted. eapply line_ok_nth; eauto.
  - intros k x Hne. apply fold_left_id. intros e v _. destruct (Nat.eqb_spec j k); [congruence|reflexivity].
Qed.

(** Column-major compressed matrices: lines are columns. *)
Lemma col_lines {T} (s : sparse T) r c f : sp_mat s r c f -> s_o s = ColMajor ->
  exists L, repr s L /\ length L = c /\ lines_ok r L /\ forall i j, i < r -> j < c -> lk i (nth j L []) = f i j.
Proof.
  intros HM Ho. apply sp_mat_lines in HM as (Hr & Hc & _ & L & HR & HL & HO & Hd).
  assert (Mi : s_minor s = c) by (unfold s_minor; now rewrite Ho).
  assert (Ma : s_major s = r) by (unfold s_major; now rewrite Ho).
  rewrite Mi in HL. rewrite Ma in HO. exists L. split; auto. split; auto. split; auto.
  intros i j Hi Hj. rewrite Hd by lia. unfold line_of, key_of. now rewrite Ho.
Qed.

Lemma in_entries_lt {T} maj (L : list (list (nat * T))) e : lines_ok maj L -> In e (entries L) ->
  fst (fst e) < length L /\ snd (fst e) < maj.
Proof.
  destruct e as [[l k] v]. intros HO Hin. apply in_entries in Hin as (line & E & Hin). cbn [fst snd].
  split; [apply nth_error_Some; congruence|].
  eapply Forall_forall in HO; [|eapply nth_error_In; eauto]. destruct HO as [_ HF].
  eapply Forall_forall in HF; [exact HF|]. apply in_map_iff. exists (k, v); auto.
Qed.

Lemma col_addr {T} (d : dense T) i j : wf_mem d -> d_orient d = ColMajor ->
  addr (d_sh d) i j = sh_base (d_sh d) + i + j * d_rows d.
Proof.
  intros (Hs & Hb & _) Ho. unfold addr, d_orient, d_rows, getLdRows in *. rewrite Hs, Ho, Hb. lia.
Qed.

(** ** sparse * dense *)
Lemma mul_sd_spec {T1 T2 T3} (fma : T3 -> T1 -> T2 -> T3) zero dbg (a : sparse T1) (b : dense T2) (c : dense T3) m n l fa fb :
  sp_mat a m n fa -> s_o a = ColMajor -> is_mat b n l fb -> d_orient b = ColMajor ->
  fresh_ok c -> d_orient c = ColMajor ->
  exists d, mul_sd fma zero dbg a b c = Ok d /\ is_mat d m l (prod_sd_at fma zero n fa fb) /\
    full_ok d /\ d_orient d = ColMajor /\ d_own d = true.
Proof.
  intros Ha Oa [Wb Vb] Ob Hf Oc. pose proof Ha as (_ & Ra & Ca & _). pose proof Vb as (Rb & Cb & _).
  destruct (col_lines a m n fa Ha Oa) as (L & HR & HL & HO & Hlk).
  unfold mul_sd, cassert. rewrite Ca, Rb, Nat.eqb_refl, andb_false_r. cbn [bind].
  destruct (resize_zero_spec zero c (s_rows a) (d_cols b) Hf) as (c0 & E0 & M0 & F0 & O0 & N0).
  rewrite E0. cbn [bind]. rewrite Ra, Cb in *. rewrite Oc in O0. pose proof M0 as [_ (Rc & Cc & _)].
  rewrite <- HL.
  rewrite (lines_fold a L _ (fun ln k x c => forM l (fun i c =>
        do y <- rd (d_buf b) (sh_base (d_sh b) + ln + i * length L);
        fma_at fma c (sh_base (d_sh c) + k + i * d_rows c) x y) c) c0 HR).
  2:{ intros ln p k v st Hk Hv. rewrite Hk, Hv. reflexivity. }
  rewrite HL.
  assert (HA : acts ColMajor m l (foldM (fun '(ln, k, x) c => forM l (fun i c =>
        do y <- rd (d_buf b) (sh_base (d_sh b) + ln + i * n);
        fma_at fma c (sh_base (d_sh c) + k + i * d_rows c) x y) c) (entries L))
     (fun i j v => fold_left (fun v e => fold_left (fun v j' =>
        if (i =? snd (fst e)) && (j =? j') then fma v (snd e) (fb (fst (fst e)) j') else v) (seq 0 l) v) (entries L) v)).
  { apply acts_foldM. intros [[ln k] x] Hin. cbn [fst snd].
    destruct (in_entries_lt m L _ HO Hin) as [Hln Hk]. cbn [fst snd] in Hln, Hk. rewrite HL in Hln.
    apply acts_forM. intros j Hj. apply acts_fma; auto. intros d g [W V] Od.
    rewrite <- Rb, <- (col_addr b) by auto.
    pose proof (view_cell b n l fb ln j Vb Hln Hj) as E2. apply rd_ok in E2. rewrite E2. cbn [bind].
    now rewrite <- (col_addr d) by auto. }
  destruct (HA c0 _ M0 O0) as (d & Ed & Md & Od & Fd & Nd).
  exists d. split; [exact Ed|]. split; [|split; [|split; [exact Od|congruence]]].
  - eapply is_mat_ext; [exact Md|]. intros i j Hi Hj. cbv beta. unfold prod_sd_at.
    rewrite (fold_left_ext _ (fun v e => if i =? snd (fst e) then fma v (snd e) (fb (fst (fst e)) j) else v)).
    + rewrite (entries_fold_key (fun v ln x => fma v x (fb ln j)) m) by auto. rewrite HL.
      apply fold_left_ext. intros k v Hk. apply in_seq in Hk. rewrite Hlk by lia. reflexivity.
    + intros [[ln k] x] v _. cbn [fst snd].
      rewrite (fold_left_one (fun j' v => if (i =? k) && (j =? j') then fma v x (fb ln j') else v) l j v Hj).
      * now rewrite Nat.eqb_refl, andb_true_r.
      * intros j' y Hne. destruct (Nat.eqb_spec j j'); [congruence|]. now rewrite andb_false_r.
  - pose proof Md as [_ (Rd & Cd & _)]. unfold full_ok, d_getSize in *. rewrite Rd, Cd, Fd, F0, Rc, Cc. reflexivity.
Qed.

(** ** dense * sparse *)
Lemma mul_ds_spec {T1 T2 T3} (fma : T3 -> T1 -> T2 -> T3) zero dbg (a : dense T1) (b : sparse T2) (c : dense T3) m n l fa fb :
  view a m n fa -> legal a -> sp_mat b n l fb -> s_o b = ColMajor -> fresh_ok c ->
  exists d, mul_ds fma zero dbg a b c = Ok d /\ is_mat d m l (prod_ds_at fma zero n fa fb) /\
    full_ok d /\ d_orient d = d_orient c /\ d_own d = true.
Proof.
  intros Va La Hb Ob Hf. pose proof Hb as (_ & Rb & Cb & _). pose proof Va as (Ra & Ca & _).
  pose proof (legal_ok a La) as (La1 & La2 & _).
  destruct (col_lines b n l fb Hb Ob) as (L & HR & HL & HO & Hlk).
  unfold mul_ds, cassert. rewrite Ca, Rb, Nat.eqb_refl, andb_false_r. cbn [bind].
  destruct (resize_zero_spec zero c (d_rows a) (s_cols b) Hf) as (c0 & E0 & M0 & F0 & O0 & N0).
  rewrite E0. cbn [bind]. rewrite Ra, Cb in *. pose proof M0 as [_ (Rc & Cc & _)].
  rewrite (repr_nlines b L HR). cbn [bind].
  rewrite (lines_fold b L _ (fun ln k y c => 
      do ads <- cur_addrs (d_sh a) DCol DRow k;
      foldM (fun '(i, pa) c =>
        do x <- rd (d_buf a) pa;
        fma_at fma c (cur_begin (d_sh c) DCol ln + i * cur_stride (d_sh c) DRow) x y) (enum ads) c) c0 HR).
  2:{ intros ln p k v st Hk Hv. rewrite Hk, Hv. reflexivity. }
  assert (HA : acts (d_orient c) m l (foldM (fun '(ln, k, y) c =>
      do ads <- cur_addrs (d_sh a) DCol DRow k;
      foldM (fun '(i, pa) c =>
        do x <- rd (d_buf a) pa;
        fma_at fma c (cur_begin (d_sh c) DCol ln + i * cur_stride (d_sh c) DRow) x y) (enum ads) c) (entries L))
     (fun i j v => fold_left (fun v e => fold_left (fun v i' =>
        if (i =? i') && (j =? fst (fst e)) then fma v (fa i' (snd (fst e))) (snd e) else v) (seq 0 m) v) (entries L) v)).
  { apply acts_foldM. intros [[ln k] y] Hin. cbn [fst snd].
    destruct (in_entries_lt n L _ HO Hin) as [Hln Hk]. cbn [fst snd] in Hln, Hk. rewrite HL in Hln.
    intros d g Hm Od. unfold d_rows, d_cols in Ra, Ca. rewrite cur_cr by lia. cbn [bind].
    rewrite enum_map_seq, foldM_map, Ra. revert d g Hm Od. apply acts_foldM. intros i Hi. apply in_seq in Hi.
    apply acts_fma; [lia|auto|]. intros d g [W V] Od. rewrite lock_cr.
    pose proof (view_cell a m n fa i k Va ltac:(lia) Hk) as E2. apply rd_ok in E2. rewrite E2. reflexivity. }
  destruct (HA c0 _ M0 O0) as (d & Ed & Md & Od & Fd & Nd).
  exists d. split; [exact Ed|]. split; [|split; [|split; [exact Od|congruence]]].
  - eapply is_mat_ext; [exact Md|]. intros i j Hi Hj. cbv beta. unfold prod_ds_at.
    rewrite (fold_left_ext _ (fun v e => if j =? fst (fst e) then fma v (fa i (snd (fst e))) (snd e) else v)).
    + rewrite (entries_fold_line (fun v k y => fma v (fa i k) y) n) by (auto; lia).
      apply fold_left_ext. intros k v Hk. apply in_seq in Hk. rewrite Hlk by lia. reflexivity.
    + intros [[ln k] x] v _. cbn [fst snd]. now rewrite (if_and_fold (fun i' v => fma v (fa i' k) x)) by auto.
  - pose proof Md as [_ (Rd & Cd & _)]. unfold full_ok, d_getSize in *. rewrite Rd, Cd, Fd, F0, Rc, Cc. reflexivity.
Qed.

(** ** sparse * sparse *)
Definition isvec {T} (b : buf T) (n : nat) (g : nat -> T) : Prop :=
  length b = n /\ forall i, i < n -> nth_error b i = Some (Some (g i)).
Definition vacts {T} (n : nat) (S : buf T -> res (buf T)) (h : nat -> T -> T) : Prop :=
  forall b g, isvec b n g -> exists b', S b = Ok b' /\ isvec b' n (fun i => h i (g i)).

Lemma vacts_foldM {T X} n (F : X -> buf T -> res (buf T)) (h : X -> nat -> T -> T) (l : list X) :
  (forall x, In x l -> vacts n (F x) (h x)) ->
  vacts n (foldM F l) (fun i v => fold_left (fun v x => h x i v) l v).
Proof.
  induction l as [|x t IH]; intros H b g Hb.
  - exists b. simpl. auto.
  - simpl. destruct (H x (or_introl eq_refl) b g Hb) as (b1 & E1 & H1). rewrite E1. cbn [bind].
    destruct (IH (fun y Hy => H y (or_intror Hy)) b1 _ H1) as (b2 & E2 & H2). exists b2. auto.
Qed.
Lemma vacts_fma {T1 T2 T} (fma : T -> T1 -> T2 -> T) n k x y : k < n ->
  vacts n (fun scr => do z <- rd scr k; wr scr k (fma z x y)) (fun i v => if i =? k then fma v x y else v).
Proof.
  intros Hk b g (HL & Hg). pose proof (Hg k Hk) as E. apply rd_ok in E. rewrite E. cbn [bind].
  rewrite wr_ok by lia. eexists; split; [reflexivity|]. split; [now rewrite upd_length|].
  intros i Hi. destruct (Nat.eqb_spec i k) as [->|Hne].
  - rewrite nth_error_upd_eq by lia. reflexivity.
  - rewrite nth_error_upd_ne by auto. auto.
Qed.

Lemma psum_start {A} (L : list (list A)) : psum 0 L = map (start L) (seq 0 (S (length L))).
Proof.
  apply nth_error_ext. intros i. rewrite nth_error_map, nth_error_seq.
  destruct (Nat.ltb_spec i (S (length L))).
  - rewrite psum_nth by lia. reflexivity.
  - simpl. apply nth_error_None. rewrite psum_length. lia.
Qed.

Lemma build_lines_pre {C} (body : nat -> buf C * buf nat * buf nat * nat -> res (buf C * buf nat * buf nat * nat))
  (LC : nat -> list (nat * C)) maj n N vs ks offs :
  (forall l, l < n -> line_ok maj (LC l)) -> n * maj <= N -> length vs = N -> length ks = N -> length offs = n + 1 ->
  (forall l E vs ks offs offs1, l < n -> filled snd E vs N -> filled fst E ks N -> length E + length (LC l) <= N ->
     wr offs l (length E) = Ok offs1 ->
     exists vs' ks', body l (vs, ks, offs, length E) = Ok (vs', ks', offs1, length (E ++ LC l)) /\
       filled snd (E ++ LC l) vs' N /\ filled fst (E ++ LC l) ks' N) ->
  exists vs' ks' offs' p offs'', forM n body (vs, ks, offs, 0) = Ok (vs', ks', offs', p) /\
    wr offs' n p = Ok offs'' /\
    filled snd (concat (map LC (seq 0 n))) vs' N /\ filled fst (concat (map LC (seq 0 n))) ks' N /\
    offs'' = map Some (psum 0 (map LC (seq 0 n))).
Proof.
  intros Hok HN Hv Hk Ho Hbody.
  set (LL := map LC (seq 0 n)).
  assert (HlenL : length LL = n) by (unfold LL; now rewrite map_length, seq_length).
  assert (Hnth : forall m, m < n -> nth_error LL m = Some (LC m)).
  { intros m Hm. unfold LL. rewrite nth_error_map, nth_error_seq. destruct (Nat.ltb_spec m n); [reflexivity|lia]. }
  assert (HF : forall m, m < n -> concat (firstn (S m) LL) = concat (firstn m LL) ++ LC m).
  { intros m Hm. rewrite <- concat_snoc. f_equal. pose proof (Hnth m Hm) as E.
    apply nth_error_split in E as (l1 & l2 & E1 & E2). rewrite E1, <- E2.
    rewrite !firstn_app, firstn_all, Nat.sub_diag, firstn_O, app_nil_r.
    rewrite firstn_all2 by lia. replace (S (length l1) - length l1) with 1 by lia. reflexivity. }
  assert (Htot : length (concat LL) <= N).
  { etransitivity; [|exact HN]. rewrite <- HlenL. apply lines_len. apply Forall_forall. intros x Hx.
    unfold LL in Hx. apply in_map_iff in Hx as (l & <- & Hl). apply in_seq in Hl. apply Hok. lia. }
  destruct (forM_inv body (fun m '(vs, ks, offs, p) =>
     filled snd (concat (firstn m LL)) vs N /\ filled fst (concat (firstn m LL)) ks N /\ p = start LL m /\
     filled (start LL) (seq 0 m) offs (n + 1)) n (vs, ks, offs, 0)) as ([[[vs' ks'] offs'] p] & E & H1 & H2 & -> & H3).
  - cbn [firstn concat seq]. rewrite <- Hv at 1. rewrite <- Hk, <- Ho. repeat split; try apply filled_nil; try lia; eexists; reflexivity.
  - intros m [[[vs1 ks1] offs1] p] Hm (H1 & H2 & -> & H3).
    destruct (filled_push (start LL) (seq 0 m) offs1 (n + 1) m H3) as (offs2 & E2 & H3'); [rewrite seq_length; lia|].
    rewrite seq_length in E2.
    destruct (Hbody m (concat (firstn m LL)) vs1 ks1 offs1 offs2 Hm H1 H2) as (vs2 & ks2 & Eb & H1' & H2').
    { rewrite <- app_length, <- HF by auto. change (start LL (S m) <= N). pose proof (start_le LL (S m)). lia. }
    { exact E2. }
    unfold start at 1. rewrite Eb. eexists; split; [reflexivity|]. cbv beta iota.
    rewrite <- HF in * by auto. split; [exact H1'|]. split; [exact H2'|]. split; [reflexivity|].
    rewrite seq_S. exact H3'.
  - destruct (filled_push (start LL) (seq 0 n) offs' (n + 1) n H3) as (offs2 & E2 & H3'); [rewrite seq_length; lia|].
    rewrite seq_length in E2. rewrite firstn_all2 in H1, H2 by lia.
    exists vs', ks', offs', (start LL n), offs2. split; [exact E|]. split; [exact E2|].
    split; [|split]; auto.
    destruct H3' as (HM & tl & ->). rewrite psum_start, HlenL, map_map, seq_S.
    rewrite app_length, map_length, app_length, seq_length in HM. simpl in HM.
    destruct tl; [apply app_nil_r|simpl in HM; lia].
Qed.

Lemma mul_ss_spec {T1 T2 T3} (fma : T3 -> T1 -> T2 -> T3) zero (nz : T3 -> bool) dbg (a : sparse T1) (b : sparse T2) (c : sparse T3) m n l fa fb :
  sp_mat a m n fa -> s_o a = ColMajor -> sp_mat b n l fb -> s_o b = ColMajor -> s_o c = ColMajor ->
  exists s, mul_ss fma zero nz dbg a b c = Ok s /\ s_o s = ColMajor /\
    sp_mat s m l (fun i j => let v := prod_ss_at fma zero n fa fb i j in if nz v then Some v else None).
Proof.
  intros Ha Oa Hb Ob Oc. pose proof Ha as (_ & Ra & Ca & _). pose proof Hb as (_ & Rb & Cb & _).
  destruct (col_lines a m n fa Ha Oa) as (LA & HRa & HLa & HOa & HlkA).
  destruct (col_lines b n l fb Hb Ob) as (LB & HRb & HLb & HOb & HlkB).
  unfold mul_ss, cassert. rewrite Ca, Rb, Nat.eqb_refl, andb_false_r. cbn [bind].
  rewrite (repr_nlines b LB HRb), HLb, Ra, Cb. cbn [bind].
  set (c0 := s_resize c m l 0).
  assert (Hlen0 : forall X (x : buf X) (n : nat), length (@st_resize X x n) = n).
  { intros X x k. unfold st_resize. destruct (Nat.eqb_spec (length x) k); auto. unfold alloc. now rewrite repeat_length. }
  assert (Hval : length (s_val c0) = m * l) by (unfold c0; simpl; apply Hlen0).
  assert (Hkey : length (s_key c0) = m * l) by (unfold c0; simpl; apply Hlen0).
  assert (Hoff : length (s_off c0) = l + 1) by (unfold c0; simpl; apply Hlen0).
  set (g := fun ln k => prod_ss_at fma zero n fa fb k ln).
  set (LC := mkl (fun v => v) nz g m).
  set (body := fun l '(vs, ks, offs, p) =>
      do bs <- s_range b l;
      do scr <- foldM (fun q scr =>
          do kb <- rd (s_key b) q;
          do y <- rd (s_val b) q;
          do r <- s_range a kb;
          foldM (fun q' scr =>
            do ka <- rd (s_key a) q';
            do x <- rd (s_val a) q';
            do z <- rd scr ka;
            wr scr ka (fma z x y)) r scr) bs (repeat (Some zero) m);
      do offs <- wr offs l p;
      do st <- forM m (fun key '(vs, ks, p) =>
          do v <- rd scr key;
          if nz v then
            do vs <- wr vs p v;
            do ks <- wr ks p key;
            Ok (vs, ks, S p)
          else Ok (vs, ks, p)) (vs, ks, p);
      let '(vs, ks, p) := st in
      Ok (vs, ks, offs, p)).
  destruct (build_lines_pre body LC m l (m * l) (s_val c0) (s_key c0) (s_off c0))
    as (vs & ks & offs & p & offs'' & E & Ew & Hv & Hk & Eo); auto; try lia.
  { intros ln _. apply mkl_ok. }
  { intros ln E vs ks offs offs1 Hln Hv Hk HN Hw.
    assert (HnB : nth_error LB ln = Some (nth ln LB [])) by (apply nth_error_nth'; lia).
    (* the scratch row *)
    assert (HV : vacts m (foldM (fun '(kb, y) scr =>
          foldM (fun '(ka, x) scr => do z <- rd scr ka; wr scr ka (fma z x y)) (nth kb LA []) scr) (nth ln LB []))
        (fun i v => fold_left (fun v e => fold_left (fun v e' => if i =? fst e' then fma v (snd e') (snd e) else v)
           (nth (fst e) LA []) v) (nth ln LB []) v)).
    { apply vacts_foldM. intros [kb y] Hin. cbn [fst snd]. apply vacts_foldM. intros [ka x] Hin'. cbn [fst snd].
      apply vacts_fma. pose proof (line_ok_nth m LA kb HOa) as [_ HF].
      eapply Forall_forall in HF; [exact HF|]. apply in_map_iff. exists (ka, x); auto. }
    assert (H0 : isvec (repeat (Some zero) m) m (fun _ => zero)).
    { split; [apply repeat_length|]. intros i Hi. rewrite nth_error_repeat; auto. }
    destruct (HV _ _ H0) as (scr & Es & HsL & Hs).
    assert (Hscr : forall k, k < m -> rd scr k = Ok (g ln k)).
    { intros k Hkm. apply rd_ok. rewrite Hs by auto. do 2 f_equal. unfold g, prod_ss_at.
      rewrite (fold_left_ext _ (fun v e => match lk k (nth (fst e) LA []) with Some x => fma v x (snd e) | None => v end)).
      2:{ intros [kb y] v _. cbn [fst snd]. rewrite (line_fold_key (fun v x => fma v x y)); auto.
          apply SSorted_NoDup. eapply line_ok_nth; eauto. }
      rewrite (line_fold_sorted (fun v kb y => match lk k (nth kb LA []) with Some x => fma v x y | None => v end) n).
      2:{ eapply line_ok_nth; eauto. }
      apply fold_left_ext. intros q v Hq. apply in_seq in Hq. rewrite HlkA, HlkB by lia.
      destruct (fb q ln); destruct (fa k q); reflexivity. }
    destruct (line_emit (fun v => v) nz g (fun _ k => k) scr m ln (m * l) E vs ks) as (vs' & ks' & Ee & Hv' & Hk'); auto.
    exists vs', ks'. split; [|split; [exact Hv'|exact Hk']].
    unfold body. rewrite (repr_range b LB HRb ln _ HnB). cbn [bind].
    rewrite (line_fold_in b LB HRb (fun kb y scr => foldM (fun '(ka, x) scr => do z <- rd scr ka; wr scr ka (fma z x y)) (nth kb LA []) scr)).
    2:{ exact HnB. }
    2:{ intros q kb y st Hin Hkb Hy. rewrite Hkb, Hy. cbn [bind].
        assert (Hlt : kb < n).
        { pose proof (line_ok_nth n LB ln HOb) as [_ HF]. eapply Forall_forall in HF; [exact HF|].
          apply in_map_iff. exists (kb, y); auto. }
        assert (HnA : nth_error LA kb = Some (nth kb LA [])) by (apply nth_error_nth'; lia).
        rewrite (repr_range a LA HRa kb _ HnA). cbn [bind].
        apply (line_fold a LA HRa (fun ka x scr => do z <- rd scr ka; wr scr ka (fma z x y))); auto.
        intros q' ka x st' Hka Hx. rewrite Hka, Hx. reflexivity. }
    rewrite Es. cbn [bind]. rewrite Hw. cbn [bind].
    rewrite enum_map_seq, foldM_map in Ee. unfold forM. unfold LC. rewrite Ee. reflexivity. }
  match goal with |- context[forM l ?g ?st] => replace (forM l g st) with (Ok (vs, ks, offs, p)) by (symmetry; exact E) end.
  cbn [bind]. rewrite Ew. cbn [bind].
  eexists; split; [reflexivity|]. split; [exact Oc|].
  apply sp_mat_lines. split; [reflexivity|]. split; [reflexivity|]. split; [reflexivity|].
  exists (map LC (seq 0 l)). split; [|split; [|split]].
  - apply repr_intro; simpl; eauto. destruct Hv as (-> & _). destruct Hk as (-> & _). reflexivity.
  - rewrite map_length, seq_length. unfold s_minor; simpl. now rewrite Oc.
  - unfold s_major; simpl. rewrite Oc. apply Forall_forall. intros x Hx.
    apply in_map_iff in Hx as (ln & <- & Hl). apply mkl_ok.
  - intros i j Hi Hj. cbn [s_rows s_cols c0 s_resize] in Hi, Hj. unfold line_of, key_of. simpl. rewrite Oc.
    assert (Hn : nth j (map LC (seq 0 l)) [] = LC j).
    { apply nth_error_nth. rewrite nth_error_map, nth_error_seq. destruct (Nat.ltb_spec j l); [reflexivity|lia]. }
    rewrite Hn. unfold LC. rewrite mkl_lk by auto. reflexivity.
Qed.
