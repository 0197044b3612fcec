(** Proofs about the dense products. *)
From Verif Require Import Base BaseLemmas Dense_Model Dense_Spec Dense_Proofs Striped_Proofs Dense2_Proofs Sparse_Model Mult_Model Mult_Spec.

(** ** Loops acting element by element on the result matrix *)
Definition acts {T} (o : orient) (r c : nat) (S : dense T -> res (dense T)) (h : nat -> nat -> T -> T) : Prop :=
  forall d g, is_mat d r c g -> d_orient d = o ->
  exists d', S d = Ok d' /\ is_mat d' r c (fun i j => h i j (g i j)) /\
    d_orient d' = o /\ d_full d' = d_full d /\ d_own d' = d_own d.

Lemma acts_ext {T} o r c (S : dense T -> res (dense T)) h h' :
  acts o r c S h -> (forall i j x, i < r -> j < c -> h i j x = h' i j x) -> acts o r c S h'.
Proof.
  intros H E d g Hm Ho. destruct (H d g Hm Ho) as (d' & E1 & M & R). exists d'. split; [exact E1|]. split; [|exact R].
  eapply is_mat_ext; [exact M|]. intros; cbv beta; auto.
Qed.

Lemma acts_foldM {T X} o r c (F : X -> dense T -> res (dense T)) (h : X -> nat -> nat -> T -> T) (l : list X) :
  (forall x, In x l -> acts o r c (F x) (h x)) ->
  acts o r c (foldM F l) (fun i j v => fold_left (fun v x => h x i j v) l v).
Proof.
  induction l as [|x t IH]; intros H d g Hm Ho.
  - exists d. simpl. auto.
  - simpl. destruct (H x (or_introl eq_refl) d g Hm Ho) as (d1 & E1 & M1 & O1 & F1 & W1). rewrite E1. cbn [bind].
    destruct (IH (fun y Hy => H y (or_intror Hy)) d1 _ M1 O1) as (d2 & E2 & M2 & O2 & F2 & W2).
    exists d2. split; [exact E2|]. split; [exact M2|]. split; [exact O2|]. split; congruence.
Qed.

Lemma acts_forM {T} o r c n (F : nat -> dense T -> res (dense T)) (h : nat -> nat -> nat -> T -> T) :
  (forall k, k < n -> acts o r c (F k) (h k)) ->
  acts o r c (forM n F) (fun i j v => fold_left (fun v k => h k i j v) (seq 0 n) v).
Proof. intros H. unfold forM. apply acts_foldM. intros k Hk. apply in_seq in Hk. apply H; lia. Qed.

Lemma acts_foldM_ext {T X} o r c (F G : X -> dense T -> res (dense T)) h l :
  (forall x d g, In x l -> is_mat d r c g -> d_orient d = o -> F x d = G x d) ->
  (forall x, In x l -> acts o r c (G x) (h x)) ->
  acts o r c (foldM F l) (fun i j v => fold_left (fun v x => h x i j v) l v).
Proof.
  intros HE HG. apply acts_foldM. intros x Hx d g Hm Ho. rewrite (HE x d g Hx Hm Ho). now apply HG.
Qed.

(** One cell. *)
Lemma acts_fma {T1 T2 T} (fma : T -> T1 -> T2 -> T) o r c i0 j0 x y (S : dense T -> res (dense T)) :
  i0 < r -> j0 < c ->
  (forall d g, is_mat d r c g -> d_orient d = o -> S d = fma_at fma d (addr (d_sh d) i0 j0) x y) ->
  acts o r c S (fun i j v => if (i =? i0) && (j =? j0) then fma v x y else v).
Proof.
  intros Hi Hj HS d g Hm Ho. rewrite (HS d g Hm Ho). unfold fma_at. destruct Hm as [W V].
  pose proof (view_cell d r c g i0 j0 V Hi Hj) as E. apply rd_ok in E. rewrite E. cbn [bind].
  pose proof (wf_sh_ok d W) as Hok. pose proof V as (Hr & Hc & _).
  assert (Hlt : addr (d_sh d) i0 j0 < length (d_buf d)) by (apply Hok; unfold d_rows, d_cols in *; lia).
  rewrite wr_ok by auto. cbn [bind].
  eexists; split; [reflexivity|]. split; [|repeat split; auto].
  split; [apply with_buf_wf; auto; now rewrite upd_length|].
  eapply view_ext; [apply (view_upd d r c g i0 j0); auto|].
  intros i j Hi' Hj'. unfold upd2. destruct (Nat.eqb_spec i i0) as [->|], (Nat.eqb_spec j j0) as [->|]; simpl; auto.
Qed.

(** Setting one cell. *)
Lemma acts_set {T} o r c i0 j0 v0 (S : dense T -> res (dense T)) :
  i0 < r -> j0 < c ->
  (forall d g, is_mat d r c g -> d_orient d = o ->
     S d = do m <- wr (d_buf d) (addr (d_sh d) i0 j0) v0; Ok (with_buf d m)) ->
  acts o r c S (fun i j v => if (i =? i0) && (j =? j0) then v0 else v).
Proof.
  intros Hi Hj HS d g Hm Ho. rewrite (HS d g Hm Ho). destruct Hm as [W V].
  pose proof (wf_sh_ok d W) as Hok. pose proof V as (Hr & Hc & _).
  assert (Hlt : addr (d_sh d) i0 j0 < length (d_buf d)) by (apply Hok; unfold d_rows, d_cols in *; lia).
  rewrite wr_ok by auto. cbn [bind].
  eexists; split; [reflexivity|]. split; [|repeat split; auto].
  split; [apply with_buf_wf; auto; now rewrite upd_length|].
  eapply view_ext; [apply (view_upd d r c g i0 j0); auto|].
  intros i j Hi' Hj'. unfold upd2. destruct (Nat.eqb_spec i i0) as [->|], (Nat.eqb_spec j j0) as [->|]; simpl; auto.
Qed.

(** ** Pure folds *)
Lemma fold_left_id {A X} (f : A -> X -> A) l a : (forall x a, In x l -> f a x = a) -> fold_left f l a = a.
Proof.
  induction l as [|x t IH]; intros H; simpl; auto. rewrite H by (now left). apply IH. intros; apply H; now right.
Qed.

Lemma fold_left_ext {A X} (f g : A -> X -> A) l a : (forall x a, In x l -> f a x = g a x) ->
  fold_left f l a = fold_left g l a.
Proof.
  revert a; induction l as [|x t IH]; intros a H; simpl; auto. rewrite H by (now left).
  apply IH. intros; apply H; now right.
Qed.

(** Only one index of the loop touches the cell. *)
Lemma fold_left_one {A} (f : nat -> A -> A) n k0 a : k0 < n -> (forall k x, k <> k0 -> f k x = x) ->
  fold_left (fun x k => f k x) (seq 0 n) a = f k0 a.
Proof.
  intros Hk H. replace n with (k0 + S (n - S k0)) by lia. rewrite seq_app, fold_left_app. cbn [seq fold_left].
  rewrite (fold_left_id _ (seq 0 k0)) by (intros x y Hx; apply in_seq in Hx; apply H; lia).
  apply fold_left_id. intros x y Hx. apply in_seq in Hx. apply H. lia.
Qed.

(** ** Result object *)
Definition fresh_ok {T} (c : dense T) : Prop :=
  sh_sub (d_sh c) = false /\ sh_base (d_sh c) = 0 /\ d_own c = true.

Lemma resize_shape {T} (c : dense T) r k : fresh_ok c ->
  exists c0, d_resize c r k = (c0, false) /\ wf_mem c0 /\ d_rows c0 = r /\ d_cols c0 = k /\ full_ok c0 /\
    d_orient c0 = d_orient c /\ d_own c0 = true.
Proof.
  intros (Hs & Hb & Hw). unfold d_resize. rewrite Hw. simpl. rewrite andb_false_r.
  eexists; split; [reflexivity|]. unfold wf_mem, full_ok, d_rows, d_cols, d_orient, d_getSize; simpl.
  repeat split; auto. unfold st_resize. destruct (Nat.eqb_spec (length (d_buf c)) (r * k)); auto.
  apply alloc_length.
Qed.

Lemma resize_zero_spec {T} (zero : T) (c : dense T) r k : fresh_ok c ->
  exists c0, resize_zero zero c r k = Ok c0 /\ is_mat c0 r k (fun _ _ => zero) /\ full_ok c0 /\
    d_orient c0 = d_orient c /\ d_own c0 = true.
Proof.
  intros H. destruct (resize_shape c r k H) as (c0 & E & W & R & K & F & O & N).
  unfold resize_zero. rewrite E.
  destruct (all_filler_mat zero c0 W) as (d & Ed & M & Od & Fd & Nd). exists d.
  rewrite R, K in M. split; [exact Ed|]. split; [exact M|]. pose proof M as [_ (Rd & Kd & _)].
  unfold full_ok, d_getSize in *. rewrite Rd, Kd. split; [congruence|]. split; congruence.
Qed.

(** ** Iterators *)
Lemma si_loop_nth s fuel : forall it en l k p,
  si_loop fuel s it en = Ok l -> nth_error l k = Some p -> si_ptr (si_iter s k it) = p.
Proof.
  induction fuel as [|f IH]; intros it en l k p E Hk; simpl in E; [discriminate|].
  destruct (si_ptr it =? en)%Z; [injection E as <-; destruct k; discriminate|].
  apply bind_ok in E as (t & E1 & E2). injection E2 as <-.
  destruct k as [|k]; simpl in Hk; [now injection Hk as <-|]. simpl. eapply IH; eauto.
Qed.

Lemma nth_pairs r c i j : i < r -> j < c -> nth_error (pairs r c) (i * c + j) = Some (i, j).
Proof.
  intros Hi Hj. unfold pairs.
  assert (G : forall n s, i < n -> nth_error (flat_map (fun i => map (fun j => (i, j)) (seq 0 c)) (seq s n)) (i * c + j) = Some (s + i, j)).
  { clear Hi. revert i. intros i n; revert i. induction n as [|n IH]; intros i s Hi; [lia|]. cbn [seq flat_map].
    destruct i as [|i].
    - rewrite nth_error_app1 by (rewrite map_length, seq_length; lia).
      rewrite nth_error_map, nth_error_seq. simpl. destruct (Nat.ltb_spec j c); [|lia]. simpl. now rewrite Nat.add_0_r.
    - rewrite nth_error_app2 by (rewrite map_length, seq_length; lia). rewrite map_length, seq_length.
      replace (S i * c + j - c) with (i * c + j) by lia. rewrite IH by lia. f_equal. f_equal. lia. }
  rewrite G by auto. reflexivity.
Qed.

Lemma iter_nth_ok {T} (d : dense T) i j : iterable d -> d_orient d = ColMajor -> i < d_rows d -> j < d_cols d ->
  iter_nth d (j * d_rows d + i) = Z.of_nat (addr (d_sh d) i j).
Proof.
  intros [Hw|(Hs & Ho & Hr & Hc & Hld & _ & Hb)] HO Hi Hj; unfold iter_nth.
  - pose proof Hw as (Hs & Hbs & Hl). rewrite Hs, Hbs, (own_addr_lin d) by auto. unfold d_orient in HO.
    f_equal. unfold lin, d_orient. rewrite HO. lia.
  - rewrite Hs. unfold d_rows, d_cols, d_orient in *.
    pose proof (win_addrs (d_sh d) Ho Hs Hr Hc Hld Hb) as E. unfold sp_addrs in E.
    eapply si_loop_nth in E; [exact E|]. rewrite nth_error_map, nth_pairs by auto. reflexivity.
Qed.

(** A fresh result object is accepted by every product. *)
Lemma default_fresh {T} o : fresh_ok (@d_default T o).
Proof. repeat split. Qed.

(** ** GeneralDense *)
Lemma if_and_fold {A} (f : nat -> A -> A) n i (b : bool) a : i < n ->
  fold_left (fun v i' => if (i =? i') && b then f i' v else v) (seq 0 n) a = if b then f i a else a.
Proof.
  intros Hi. rewrite (fold_left_one (fun k v => if (i =? k) && b then f k v else v) n i a Hi).
  - now rewrite Nat.eqb_refl.
  - intros k x Hne. destruct (Nat.eqb_spec i k); [congruence|reflexivity].
Qed.

Lemma mul_dd_spec {T1 T2 T3} (fma : T3 -> T1 -> T2 -> T3) zero dbg (a : dense T1) (b : dense T2) (c : dense T3) m n l fa fb :
  view a m n fa -> iterable a -> d_orient a = ColMajor ->
  view b n l fb -> iterable b -> d_orient b = ColMajor ->
  fresh_ok c -> d_orient c = ColMajor ->
  exists d, mul_dd fma zero dbg a b c = Ok d /\ is_mat d m l (prod_at fma zero n fa fb) /\
    full_ok d /\ d_orient d = ColMajor /\ d_own d = true.
Proof.
  intros Va Ia Oa Vb Ib Ob Hf Oc. pose proof Va as (Ra & Ca & _). pose proof Vb as (Rb & Cb & _).
  unfold mul_dd, cassert. rewrite Ca, Rb, Nat.eqb_refl, andb_false_r. cbn [bind].
  destruct (resize_zero_spec zero c (d_rows a) (d_cols b) Hf) as (c0 & E0 & M0 & F0 & O0 & N0).
  rewrite E0. cbn [bind]. rewrite Ra, Cb in *. rewrite Oc in O0.
  pose proof M0 as [_ (Rc & Cc & _)].
  assert (HA : acts ColMajor m l
    (forM l (fun j c => forM n (fun k c => forM m (fun i c =>
        do x <- rdz (d_buf a) (iter_nth a (k * m + i));
        do y <- rdz (d_buf b) (iter_nth b (j * n + k));
        fma_at fma c (sh_base (d_sh c) + (j * d_rows c0 + i)) x y) c) c))
    (fun i j v => fold_left (fun v j' => fold_left (fun v k => fold_left (fun v i' =>
       if (i =? i') && (j =? j') then fma v (fa i' k) (fb k j') else v) (seq 0 m) v) (seq 0 n) v) (seq 0 l) v)).
  { apply acts_forM; intros j Hj. apply acts_forM; intros k Hk. apply acts_forM; intros i Hi.
    apply (acts_fma fma ColMajor m l i j (fa i k) (fb k j)); auto.
    intros d g [W V] Od. rewrite <- Ra. rewrite iter_nth_ok by (auto; lia).
    rewrite <- Rb. rewrite iter_nth_ok by (auto; lia). rewrite !rdz_nat.
    pose proof (view_cell a m n fa i k Va Hi Hk) as E1. apply rd_ok in E1. rewrite E1. cbn [bind].
    pose proof (view_cell b n l fb k j Vb Hk Hj) as E2. apply rd_ok in E2. rewrite E2. cbn [bind].
    f_equal. destruct W as (Ws & Wb & _). destruct V as (Rd & _). unfold addr, d_orient, d_rows, getLdRows in *.
    rewrite Ws, Od, Wb. lia. }
  destruct (HA c0 _ M0 O0) as (d & Ed & Md & Od & Fd & Nd).
  exists d. split; [exact Ed|]. split; [|split; [|split; [exact Od|congruence]]].
  - eapply is_mat_ext; [exact Md|]. intros i j Hi Hj. cbv beta. unfold prod_at.
    rewrite (fold_left_one (fun j' v => fold_left (fun v k => fold_left (fun v i' =>
       if (i =? i') && (j =? j') then fma v (fa i' k) (fb k j') else v) (seq 0 m) v) (seq 0 n) v) l j zero Hj).
    + apply fold_left_ext. intros k v _. rewrite (if_and_fold (fun i' v => fma v (fa i' k) (fb k j))) by auto.
      now rewrite Nat.eqb_refl.
    + intros j' v Hne. apply fold_left_id. intros k x _. apply fold_left_id. intros i' y _.
      destruct (Nat.eqb_spec j j'); [congruence|]. now rewrite andb_false_r.
  - pose proof Md as [_ (Rd & Cd & _)]. unfold full_ok, d_getSize in *. rewrite Rd, Cd, Fd, F0, Rc, Cc. reflexivity.
Qed.

(** ** UsingCursor.  The result memory starts uninitialised. *)
Definition omat {T} (d : dense T) (r c : nat) (g : nat -> nat -> option T) : Prop :=
  wf_mem d /\ d_rows d = r /\ d_cols d = c /\
  forall i j, i < r -> j < c -> nth_error (d_buf d) (addr (d_sh d) i j) = Some (g i j).

Lemma omat_mat {T} (d : dense T) r c g : omat d r c (fun i j => Some (g i j)) -> is_mat d r c g.
Proof. intros (W & R & C & H). split; auto. now apply view_from_cells. Qed.

Lemma wf_omat {T} (d : dense T) : wf_mem d -> exists g, omat d (d_rows d) (d_cols d) g.
Proof.
  intros W. exists (fun i j => nth (addr (d_sh d) i j) (d_buf d) None). split; auto. split; auto. split; auto.
  intros i j Hi Hj. apply nth_error_nth'. now apply (wf_sh_ok d W).
Qed.

Definition oacts {T} (o : orient) (r c : nat) (S : dense T -> res (dense T)) (h : nat -> nat -> option T -> option T) : Prop :=
  forall d g, omat d r c g -> d_orient d = o ->
  exists d', S d = Ok d' /\ omat d' r c (fun i j => h i j (g i j)) /\
    d_orient d' = o /\ d_full d' = d_full d /\ d_own d' = d_own d.

Lemma oacts_foldM {T X} o r c (F : X -> dense T -> res (dense T)) h (l : list X) :
  (forall x, In x l -> oacts o r c (F x) (h x)) ->
  oacts o r c (foldM F l) (fun i j v => fold_left (fun v x => h x i j v) l v).
Proof.
  induction l as [|x t IH]; intros H d g Hm Ho.
  - exists d. simpl. auto.
  - simpl. destruct (H x (or_introl eq_refl) d g Hm Ho) as (d1 & E1 & M1 & O1 & F1 & W1). rewrite E1. cbn [bind].
    destruct (IH (fun y Hy => H y (or_intror Hy)) d1 _ M1 O1) as (d2 & E2 & M2 & O2 & F2 & W2).
    exists d2. split; [exact E2|]. split; [exact M2|]. split; [exact O2|]. split; congruence.
Qed.
Lemma oacts_forM {T} o r c n (F : nat -> dense T -> res (dense T)) h :
  (forall k, k < n -> oacts o r c (F k) (h k)) ->
  oacts o r c (forM n F) (fun i j v => fold_left (fun v k => h k i j v) (seq 0 n) v).
Proof. intros H. unfold forM. apply oacts_foldM. intros k Hk. apply in_seq in Hk. apply H; lia. Qed.

Lemma oacts_set {T} o r c i0 j0 v0 (S : dense T -> res (dense T)) :
  i0 < r -> j0 < c ->
  (forall d, wf_mem d -> d_rows d = r -> d_cols d = c -> d_orient d = o ->
     S d = Ok (with_buf d (upd (d_buf d) (addr (d_sh d) i0 j0) (Some v0)))) ->
  oacts o r c S (fun i j v => if (i =? i0) && (j =? j0) then Some v0 else v).
Proof.
  intros Hi Hj HS d g (W & R & C & H) Ho. rewrite (HS d W R C Ho).
  eexists; split; [reflexivity|]. split; [|repeat split; auto].
  pose proof (wf_sh_ok d W) as Hok.
  split; [apply with_buf_wf; auto; now rewrite upd_length|]. split; [exact R|]. split; [exact C|].
  intros i j Hi' Hj'. cbn [with_buf d_buf d_sh]. unfold d_rows, d_cols in *.
  destruct (Nat.eqb_spec i i0) as [->|Hne], (Nat.eqb_spec j j0) as [->|Hne2]; cbn [andb].
  - rewrite nth_error_upd_eq; auto. apply Hok; lia.
  - rewrite nth_error_upd_ne; [auto|]. intros E. destruct (addr_inj (d_sh d) _ i0 j0 i0 j Hok); try lia.
  - rewrite nth_error_upd_ne; [auto|]. intros E. destruct (addr_inj (d_sh d) _ i0 j0 i j0 Hok); try lia.
  - rewrite nth_error_upd_ne; [auto|]. intros E. destruct (addr_inj (d_sh d) _ i0 j0 i j Hok); try lia.
Qed.

Lemma upd_upd {A} (l : list A) i v w : upd (upd l i v) i w = upd l i w.
Proof. revert i; induction l as [|x t IH]; intros [|i]; simpl; auto. now rewrite IH. Qed.

(** A chain of [+=] on one cell. *)
Lemma fma_chain {T1 T2 T3 X} (fma : T3 -> T1 -> T2 -> T3) (d : dense T3) pc (G : X -> res (T1 * T2)) (x : X -> T1) (y : X -> T2) l :
  pc < length (d_buf d) -> (forall e, In e l -> G e = Ok (x e, y e)) ->
  forall z, foldM (fun e c => do p <- G e; fma_at fma c pc (fst p) (snd p)) l (with_buf d (upd (d_buf d) pc (Some z)))
  = Ok (with_buf d (upd (d_buf d) pc (Some (fold_left (fun acc e => fma acc (x e) (y e)) l z)))).
Proof.
  intros Hlt. induction l as [|e t IH]; intros HG z; cbn [foldM fold_left]; auto.
  rewrite HG by (now left). cbn [bind fst snd]. unfold fma_at. cbn [with_buf d_buf].
  assert (E : rd (upd (d_buf d) pc (Some z)) pc = Ok z) by (apply rd_ok; now rewrite nth_error_upd_eq).
  rewrite E. cbn [bind]. rewrite wr_ok by (now rewrite upd_length). cbn [bind]. rewrite upd_upd.
  apply IH. intros; apply HG; now right.
Qed.

Lemma mul_cursor_spec {T1 T2 T3} (fma : T3 -> T1 -> T2 -> T3) zero (a : dense T1) (b : dense T2) (c : dense T3) m n l fa fb :
  view a m n fa -> legal a -> view b n l fb -> fresh_ok c ->
  exists d, mul_cursor fma zero a b c = Ok d /\ is_mat d m l (prod_at fma zero n fa fb) /\
    full_ok d /\ d_orient d = d_orient c /\ d_own d = true.
Proof.
  intros Va La Vb Hf. pose proof Va as (Ra & Ca & _). pose proof Vb as (Rb & Cb & _).
  pose proof (legal_ok a La) as (La1 & La2 & _).
  destruct (resize_shape c (d_rows a) (d_cols b) Hf) as (c0 & E0 & W0 & R0 & C0 & F0 & O0 & N0).
  unfold mul_cursor. rewrite E0. rewrite Ra, Cb in *.
  destruct (wf_omat c0 W0) as (g & Hg). rewrite R0, C0 in Hg.
  assert (HA : oacts (d_orient c) m l
    (forM m (fun i c => forM l (fun j c =>
      let pc := cur_begin (d_sh c) DRow i + j * cur_stride (d_sh c) DCol in
      do m <- wr (d_buf c) pc zero;
      do ads <- cur_addrs (d_sh a) DRow DCol i;
      foldM (fun '(k, pa) c =>
        do x <- rd (d_buf a) pa;
        do y <- rd (d_buf b) (cur_begin (d_sh b) DCol j + k * cur_stride (d_sh b) DRow);
        fma_at fma c pc x y) (enum ads) (with_buf c m)) c))
    (fun i j v => fold_left (fun v i' => fold_left (fun v j' =>
       if (i =? i') && (j =? j') then Some (prod_at fma zero n fa fb i' j') else v) (seq 0 l) v) (seq 0 m) v)).
  { apply oacts_forM; intros i Hi. apply oacts_forM; intros j Hj. apply oacts_set; auto.
    intros d W R C O. cbv zeta. rewrite lock_rc.
    assert (Hlt : addr (d_sh d) i j < length (d_buf d)).
    { apply (wf_sh_ok d W); unfold d_rows, d_cols in *; lia. }
    rewrite wr_ok by auto. cbn [bind]. unfold d_rows, d_cols in *. rewrite cur_rc by lia. cbn [bind].
    rewrite enum_map_seq, foldM_map, Ca.
    pose proof (fma_chain fma d (addr (d_sh d) i j)
      (fun k => do x <- rd (d_buf a) (addr (d_sh a) i k); do y <- rd (d_buf b) (addr (d_sh b) k j); Ok (x, y))
      (fun k => fa i k) (fun k => fb k j) (seq 0 n) Hlt) as HC.
    unfold prod_at. etransitivity; [|apply HC].
    - apply foldM_ext. intros k s _. rewrite lock_cr, !bind_assoc. apply bind_ext; intros x _.
      rewrite bind_assoc. reflexivity.
    - intros k Hk. apply in_seq in Hk.
      pose proof (view_cell a m n fa i k Va Hi ltac:(lia)) as E1. apply rd_ok in E1. rewrite E1. cbn [bind].
      pose proof (view_cell b n l fb k j Vb ltac:(lia) Hj) as E2. apply rd_ok in E2. rewrite E2. reflexivity. }
  destruct (HA c0 g Hg O0) as (d & Ed & Md & Od & Fd & Nd).
  exists d. split; [exact Ed|]. pose proof Md as (_ & Rd & Cd & _). split; [|split; [|split; [exact Od|congruence]]].
  - apply omat_mat. destruct Md as (W & R & C & H). split; [exact W|]. split; [exact R|]. split; [exact C|].
    intros i j Hi Hj. rewrite H by auto. f_equal.
    rewrite (fold_left_one (fun i' v => fold_left (fun v j' =>
       if (i =? i') && (j =? j') then Some (prod_at fma zero n fa fb i' j') else v) (seq 0 l) v) m i (g i j) Hi).
    + rewrite (fold_left_one (fun j' v => if (i =? i) && (j =? j') then Some (prod_at fma zero n fa fb i j') else v) l j (g i j) Hj).
      * now rewrite !Nat.eqb_refl.
      * intros k x Hne. destruct (Nat.eqb_spec j k); [congruence|]. now rewrite andb_false_r.
    + intros k x Hne. apply fold_left_id. intros j' y _. destruct (Nat.eqb_spec i k); [congruence|reflexivity].
  - unfold full_ok, d_getSize in *. congruence.
Qed.
