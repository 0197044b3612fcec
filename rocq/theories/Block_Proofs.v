(** Proofs: blocked product, reassembling and cutting. *)
From Verif Require Import Base BaseLemmas Dense_Model Dense_Spec Dense_Proofs Dense2_Proofs Sparse_Model Sparse_Spec
  Sparse_Proofs Sparse2_Proofs Sparse3_Proofs Sparse4_Proofs SparseT_Proofs SparseP_Proofs
  Mult_Model Mult_Spec Mult_Proofs Mult2_Proofs Mult3_Proofs Dyn_Model Dyn_Spec Dyn_Proofs Dyn2_Proofs.

(** ** Cells written so far by a row-by-row loop *)
Section Wrote.
Context {U : Type} (sh : shape) (n : nat) (Q : nat -> nat -> U -> Prop).
Hypothesis Hok : sh_ok sh n.

Definition wrote (b : buf U) (i0 j0 : nat) : Prop :=
  length b = n /\
  forall i j, i < sh_rows sh -> j < sh_cols sh -> (i < i0 \/ (i = i0 /\ j < j0)) ->
    exists v, nth_error b (addr sh i j) = Some (Some v) /\ Q i j v.

Lemma wrote_0 b : length b = n -> wrote b 0 0.
Proof. intros H. split; auto. intros; lia. Qed.

Lemma wrote_step b i0 j0 v : i0 < sh_rows sh -> j0 < sh_cols sh -> wrote b i0 j0 -> Q i0 j0 v ->
  wrote (upd b (addr sh i0 j0) (Some v)) i0 (S j0).
Proof.
  intros Hi Hj [L H] HQ. split; [now rewrite upd_length|].
  assert (Ha : addr sh i0 j0 < length b) by (rewrite L; now apply Hok).
  intros i j Hi' Hj' C. destruct (Nat.eq_dec (addr sh i j) (addr sh i0 j0)) as [E|E].
  - destruct (addr_inj sh n i j i0 j0) as [-> ->]; auto.
    exists v. split; auto. now apply nth_error_upd_eq.
  - rewrite nth_error_upd_ne by congruence. apply H; auto.
    destruct C as [C|[-> C]]; auto. right. split; auto.
    assert (j <> j0) by (intros ->; now apply E). lia.
Qed.

Lemma wrote_row b i0 : wrote b i0 (sh_cols sh) -> wrote b (S i0) 0.
Proof. intros [L H]. split; auto. intros i j Hi Hj C. apply H; auto. lia. Qed.

Lemma wrote_all (u0 : U) b : wrote b (sh_rows sh) 0 -> exists f,
  forall i j, i < sh_rows sh -> j < sh_cols sh -> nth_error b (addr sh i j) = Some (Some (f i j)) /\ Q i j (f i j).
Proof.
  intros [L H]. exists (fun i j => match nth_error b (addr sh i j) with Some (Some v) => v | _ => u0 end).
  intros i j Hi Hj. destruct (H i j Hi Hj (or_introl Hi)) as (v & E & HQ). rewrite E. auto.
Qed.
End Wrote.

(** A double loop each of whose iterations writes one cell. *)
Lemma fill_rcQ {U} sh n (Q : nat -> nat -> U -> Prop) (F : nat -> nat -> dense U -> res (dense U)) (u0 : U) :
  sh_ok sh n ->
  (forall i j d, i < sh_rows sh -> j < sh_cols sh -> d_sh d = sh -> length (d_buf d) = n ->
     exists v, F i j d = Ok (with_buf d (upd (d_buf d) (addr sh i j) (Some v))) /\ Q i j v) ->
  forall d, d_sh d = sh -> length (d_buf d) = n ->
  exists b f, forM (sh_rows sh) (fun i => forM (sh_cols sh) (F i)) d = Ok (with_buf d b) /\ length b = n /\
    forall i j, i < sh_rows sh -> j < sh_cols sh -> nth_error b (addr sh i j) = Some (Some (f i j)) /\ Q i j (f i j).
Proof.
  intros Hok HF d Hsh Hlen.
  destruct (forM_inv (fun i => forM (sh_cols sh) (F i))
    (fun i e => exists b, e = with_buf d b /\ wrote sh n Q b i 0) (sh_rows sh) d) as (e & E & b & -> & HW).
  - exists (d_buf d). split; [now destruct d|]. now apply wrote_0.
  - intros i e Hi (b & -> & HW).
    destruct (forM_inv (F i) (fun j e => exists b, e = with_buf d b /\ wrote sh n Q b i j) (sh_cols sh) (with_buf d b))
      as (e & E & b' & -> & HW').
    + exists b. auto.
    + intros j e Hj (b2 & -> & HW2). destruct (HF i j (with_buf d b2) Hi Hj Hsh (proj1 HW2)) as (v & Ev & HQ).
      rewrite Ev. eexists. split; [reflexivity|]. exists (upd b2 (addr sh i j) (Some v)). split; [now destruct d|].
      apply wrote_step; auto.
    + eexists. split; [exact E|]. exists b'. split; auto. now apply wrote_row.
  - destruct (wrote_all sh n Q u0 b HW) as (f & Hf). exists b, f. split; [exact E|]. split; [exact (proj1 HW)|exact Hf].
Qed.

(** ** Offsets *)
Lemma offs_S l k : k < length l -> offs l (S k) = offs l k + nth k l 0.
Proof.
  unfold offs. revert k. induction l as [|x l IH]; intros k Hk; [cbn in Hk; lia|].
  destruct k as [|k]; [cbn; lia|]. cbn [firstn list_sum fold_right nth]. cbn in Hk.
  change (fold_right Nat.add 0 ?z) with (list_sum z).
  change (x + list_sum (firstn (S k) l) = x + list_sum (firstn k l) + nth k l 0). rewrite IH by lia. lia.
Qed.
Lemma offs_all l : offs l (length l) = list_sum l.
Proof. unfold offs. now rewrite firstn_all. Qed.
Lemma offs_0 l : offs l 0 = 0. Proof. reflexivity. Qed.
Lemma offs_le l j k : j <= k -> offs l j <= offs l k.
Proof.
  unfold offs. revert j k. induction l as [|x l IH]; intros j k H; [now rewrite !firstn_nil|].
  destruct j as [|j], k as [|k]; cbn; try lia.
  change (fold_right Nat.add 0 ?z) with (list_sum z). specialize (IH j k ltac:(lia)). lia.
Qed.
Lemma offs_le_all l k : offs l k <= list_sum l.
Proof.
  destruct (le_lt_dec k (length l)) as [H|H].
  - rewrite <- (offs_all l). now apply offs_le.
  - unfold offs. rewrite firstn_all2 by lia. lia.
Qed.
Lemma offs_find l i : i < list_sum l -> exists k, k < length l /\ offs l k <= i < offs l (S k).
Proof.
  intros H. assert (K : forall n, n <= length l -> i < offs l n -> exists k, k < n /\ offs l k <= i < offs l (S k)).
  { induction n as [|n IH]; intros Hn Hi; [cbn in Hi; lia|].
    destruct (le_lt_dec (offs l n) i) as [G|G]; [exists n; lia|].
    destruct (IH ltac:(lia) G) as (k & Hk & E). exists k. split; [lia|exact E]. }
  destruct (K (length l) (Nat.le_refl _)) as (k & Hk & E); [now rewrite offs_all|]. eauto.
Qed.

Section P.
Context {F D : Type} (ar : arith F D) {SD : Scalar D} (X : exact ar).

Let RL : RingLaws D := ex_ring ar X.
#[local] Existing Instance RL.

Lemma sum_n_app a b (h : nat -> D) : sum_n (a + b) h = sadd (sum_n a h) (sum_n b (fun k => h (a + k))).
Proof.
  induction b as [|b IH]; [rewrite Nat.add_0_r; cbn; now rewrite add0r|].
  rewrite Nat.add_succ_r. cbn [sum_n]. rewrite IH. symmetry. apply r_addA.
Qed.

Lemma rep_ext d r c g g' : rep ar d r c g -> (forall i j, i < r -> j < c -> g i j = g' i j) -> rep ar d r c g'.
Proof.
  intros H E. destruct d as [l|t1 t2 [a|] [b|]]; cbn [rep] in *; try contradiction.
  - eapply rep_leaf_ext; eauto.
  - destruct H as (E1 & E2 & g1 & g2 & Ha & Hb & Hg). split; auto. split; auto. exists g1, g2. split; auto. split; auto.
    intros. rewrite <- E; auto.
Qed.

Lemma mul_ptr_spec ready p dbg a b m n l ga gb :
  (forall t, In t type_list -> ready t = true) -> In (dyn_ty a) type_list -> In (dyn_ty b) type_list ->
  rep ar a m n ga -> rep ar b n l gb -> fits p m n l -> float_exact ar p ->
  exists c, mul_ptr ar ready p dbg (Some a) (Some b) = Ok (Some (DL c)) /\ rep ar (DL c) m l (mat_prod n ga gb).
Proof.
  intros Hr Ta Tb Ha Hb Hf He. unfold mul_ptr. rewrite exec_dyn_2dim_ok, Hr by auto.
  destruct (mul_dyn_spec ar X p dbg a b m n l ga gb Ha Hb Hf He) as (c & E & _ & Hc). rewrite E. cbn [bind]. eauto.
Qed.
Lemma add_ptr_spec ready dbg a b r c ga gb :
  (forall t, In t type_list -> ready t = true) -> In (dyn_ty a) type_list -> In (dyn_ty b) type_list ->
  rep ar a r c ga -> rep ar b r c gb ->
  exists e, add_ptr ar ready dbg (Some a) (Some b) = Ok (Some (DL e)) /\ rep ar (DL e) r c (fun i j => sadd (ga i j) (gb i j)).
Proof.
  intros Hr Ta Tb Ha Hb. unfold add_ptr. rewrite exec_dyn_2dim_ok, Hr by auto.
  destruct (add_dyn_spec ar X dbg a b r c ga gb Ha Hb) as (e & E & _ & He). rewrite E. cbn [bind]. eauto.
Qed.

(** ** Blocked product *)
Lemma mul_blocked_spec ready p dbg a b rl nl cl ga gb :
  (forall t, In t type_list -> ready t = true) -> float_exact ar p ->
  (forall I K J, I < length rl -> K < length nl -> J < length cl -> fits p (nth I rl 0) (nth K nl 0) (nth J cl 0)) ->
  nl <> [] ->
  rep_blocked ar a rl nl ga -> rep_blocked ar b nl cl gb ->
  exists c, mul_blocked ar ready p dbg a b = Ok c /\ rep_blocked ar c rl cl (mat_prod (list_sum nl) ga gb).
Proof.
  intros Hready He Hfit Hnl (Ua1 & Ua2 & Oa & fa & Ma & Ba) (Ub1 & Ub2 & Ob & fb & Mb & Bb).
  pose proof Ma as [Wa Va]. pose proof Mb as [Wb Vb]. pose proof Va as (Ra & Ca & _). pose proof Vb as (Rb & Cb & _).
  unfold mul_blocked. cbn zeta. rewrite Ra, Cb, Ua1, Ub2.
  set (c0 := blk_resize (blk_new 0 0 0 0) (length rl) (length cl) (list_sum rl) (list_sum cl)).
  set (sh := d_sh (b_mat c0)).
  assert (Wc : wf_mem (b_mat c0)).
  { unfold c0, blk_resize, blk_new, wf_mem, d_rows, d_cols; cbn. repeat split.
    destruct (length rl * length cl) eqn:E; cbn; [reflexivity|]. now rewrite repeat_length. }
  assert (Hsh : sh_ok sh (length (d_buf (b_mat c0)))) by (now apply wf_sh_ok).
  assert (Rc : sh_rows sh = length rl) by reflexivity. assert (Cc : sh_cols sh = length cl) by reflexivity.
  match goal with |- context [forM (length rl) (fun i C => forM (length cl) (@?B i) C) (b_mat c0)] => set (body := B) end.
  set (Q := fun I J (v : option (dyn F D)) => exists d, v = Some d /\ In (dyn_ty d) type_list /\
     rep ar d (nth I rl 0) (nth J cl 0) (fun i j => mat_prod (list_sum nl) ga gb (offs rl I + i) (offs cl J + j))).
  destruct (fill_rcQ sh (length (d_buf (b_mat c0))) Q body None Hsh) with (d := b_mat c0) as (bb & f & E & L & Hf); auto.
  { intros i j d Hi Hj Esh Hlen. rewrite Rc in Hi. rewrite Cc in Hj. unfold body.
    assert (Epc : cur_begin (d_sh d) DRow i + j * cur_stride (d_sh d) DCol = addr sh i j) by (rewrite Esh; apply lock_rc).
    cbn zeta. rewrite Epc.
    assert (Epb : forall k, cur_begin (d_sh (b_mat b)) DCol j + k * cur_stride (d_sh (b_mat b)) DRow = addr (d_sh (b_mat b)) k j)
      by (intros; apply lock_cr).
    rewrite cur_rc; [|unfold d_rows in Ra; lia|apply (wf_sh_ok (b_mat a) Wa)]. cbn [bind].
    rewrite enum_map_seq. unfold d_cols in Ca. rewrite Ca.
    destruct (length nl) as [|K] eqn:EK; [destruct nl; [congruence|discriminate]|].
    cbn [seq map].
    assert (RA : forall k, k < S K -> rd (d_buf (b_mat a)) (addr (d_sh (b_mat a)) i k) = Ok (fa i k)).
    { intros k Hk. apply rd_ok. apply (view_cell (b_mat a) _ _ fa i k Va); lia. }
    assert (RB : forall k, k < S K -> rd (d_buf (b_mat b)) (addr (d_sh (b_mat b)) k j) = Ok (fb k j)).
    { intros k Hk. apply rd_ok. apply (view_cell (b_mat b) _ _ fb k j Vb); lia. }
    assert (Hpc : addr sh i j < length (d_buf d)) by (rewrite Hlen; apply Hsh; lia).
    (* one block product *)
    assert (MUL : forall k, k < S K -> exists c, mul_ptr ar ready p dbg (fa i k) (fb k j) = Ok (Some (DL c)) /\
       rep ar (DL c) (nth i rl 0) (nth j cl 0)
         (fun u v => sum_n (nth k nl 0) (fun q => smul (ga (offs rl i + u) (offs nl k + q)) (gb (offs nl k + q) (offs cl j + v))))).
    { intros k Hk. destruct (Ba i k) as (x & Ex & Tx & Rx); [lia|lia|]. destruct (Bb k j) as (y & Ey & Ty & Ry); [lia|lia|].
      rewrite Ex, Ey. eapply (mul_ptr_spec ready p dbg x y); eauto. }
    rewrite RA by lia. cbn [bind]. rewrite Epb, RB by lia. cbn [bind].
    destruct (MUL 0 ltac:(lia)) as (c1 & Ec1 & Rc1). rewrite Ec1. cbn [bind]. rewrite wr_ok by auto. cbn [bind].
    destruct (foldM_inv (fun '(k, pa) C =>
            do w <- rd (d_buf C) (addr sh i j);
            do x <- rd (d_buf (b_mat a)) pa;
            do y <- rd (d_buf (b_mat b)) (cur_begin (d_sh (b_mat b)) DCol j + k * cur_stride (d_sh (b_mat b)) DRow);
            do z <- mul_ptr ar ready p dbg x y;
            do s <- add_ptr ar ready dbg w z;
            do m <- wr (d_buf C) (addr sh i j) s;
            Ok (with_buf C m))
      (fun k C => exists e, C = with_buf d (upd (d_buf d) (addr sh i j) (Some (Some e))) /\ In (dyn_ty e) type_list /\
         rep ar e (nth i rl 0) (nth j cl 0)
           (fun u v => sum_n (offs nl (S k)) (fun q => smul (ga (offs rl i + u) q) (gb q (offs cl j + v)))))
      (map (fun k => (k, addr (d_sh (b_mat a)) i k)) (seq 1 K))
      (with_buf d (upd (d_buf d) (addr sh i j) (Some (Some (DL c1)))))) as (C & EC & e & -> & Te & Re).
    - exists (DL c1). split; [reflexivity|]. split; [apply lty_in|]. rewrite (offs_S nl 0) by lia. exact Rc1.
    - intros k [k' pa] C Hk (e & -> & Te & Re). rewrite nth_error_map, nth_error_seq in Hk.
      destruct (Nat.ltb_spec k K) as [Hk1|]; [|discriminate]. cbn in Hk. injection Hk as <- <-.
      assert (Erd : rd (d_buf (with_buf d (upd (d_buf d) (addr sh i j) (Some (Some e))))) (addr sh i j) = Ok (Some e)).
      { apply rd_ok. cbn. now apply nth_error_upd_eq. }
      rewrite Erd. cbn [bind]. rewrite RA by lia. cbn [bind]. rewrite Epb, RB by lia. cbn [bind].
      destruct (MUL (S k) ltac:(lia)) as (c2 & Ec2 & Rc2). rewrite Ec2. cbn [bind].
      destruct (add_ptr_spec ready dbg e (DL c2) _ _ _ _ Hready Te (lty_in _) Re Rc2) as (e2 & Ee2 & Re2).
      rewrite Ee2. cbn [bind]. cbn [with_buf d_buf]. rewrite wr_ok by (now rewrite upd_length). cbn [bind].
      rewrite upd_upd. eexists. split; [reflexivity|]. exists (DL e2). split; [reflexivity|]. split; [apply lty_in|].
      eapply rep_ext; [exact Re2|]. intros u v Hu Hv. cbv beta. rewrite (offs_S nl (S k)) by lia. now rewrite sum_n_app.
    - exists (Some e). split; [exact EC|]. exists e. split; [reflexivity|]. split; [exact Te|].
      eapply rep_ext; [exact Re|]. intros u v Hu Hv. cbv beta. rewrite map_length, seq_length, <- EK, offs_all. reflexivity. }
  change (forM (length rl) (fun i => forM (length cl) (body i)) (b_mat c0) = Ok (with_buf (b_mat c0) bb)) in E.
  match goal with |- context [forM (length rl) ?g (b_mat c0)] =>
    replace (forM (length rl) g (b_mat c0)) with (Ok (with_buf (b_mat c0) bb)) by (symmetry; exact E) end. cbn [bind].
  eexists. split; [reflexivity|]. split; [reflexivity|]. split; [reflexivity|]. split; [reflexivity|].
  exists f. cbn [b_mat b_ubr b_ubc]. split.
  - split; [now apply with_buf_wf|]. apply view_from_cells; [reflexivity|reflexivity|].
    intros i j Hi Hj. cbn [with_buf d_buf d_sh]. now apply Hf.
  - intros I J HI HJ. now apply Hf.
Qed.

End P.

(** ** Reassembling and cutting: no law about the arithmetic is needed beyond
    [x + 0 = x]. *)
Section Cut.
Context {F D : Type} (ar : arith F D).

Lemma dense_of_blocked_gen exc dbg b rl cl g :
  b_ubr b = list_sum rl -> b_ubc b = list_sum cl -> d_orient (b_mat b) = ColMajor ->
  (exists f, is_mat (b_mat b) (length rl) (length cl) f /\
    forall I J, I < length rl -> J < length cl ->
      exists d, f I J = Some d /\ In (dyn_ty d) type_list /\
        rep ar d (nth I rl 0) (nth J cl 0) (fun i j => g (offs rl I + i) (offs cl J + j)) /\ law0 ar d) ->
  exists d, dense_of_blocked ar exc dbg b = Ok d /\ is_mat d (list_sum rl) (list_sum cl) g /\
    d_orient d = ColMajor /\ d_own d = true /\ full_ok d.
Proof.
  intros U1 U2 O (f & M & B). pose proof M as [W V]. pose proof V as (R & C & _).
  unfold dense_of_blocked. cbn zeta. rewrite U1, U2.
  set (out0 := @d_new D ColMajor (list_sum rl) (list_sum cl)).
  assert (W0 : wf_mem out0) by apply d_new_wf.
  set (good := fun (buf : buf D) (I J : nat) => length buf = length (d_buf out0) /\
     forall i j, i < list_sum rl -> j < list_sum cl -> (i < offs rl I \/ (i < offs rl (S I) /\ j < offs cl J)) ->
       nth_error buf (addr (d_sh out0) i j) = Some (Some (g i j))).
  rewrite R.
  match goal with |- context [forM (length rl) ?g ?s] => set (outer := g) end.
  destruct (forM_inv outer (fun I st => exists buf ro tmp, st = (with_buf out0 buf, ro, tmp) /\ good buf I 0 /\
      (cl <> [] -> ro = offs rl I)) (length rl) (out0, 0, 0)) as (st & E & buf & ro & tmp & -> & [L G] & _).
  - exists (d_buf out0), 0, 0. split; [reflexivity|]. split; [|auto]. split; [reflexivity|].
    intros i j _ _ [H|[_ H]]; cbn in H; lia.
  - intros I st HI (buf & ro & tmp & -> & HG & Hro). unfold outer.
    rewrite cur_rc; [|unfold d_rows in R; lia|apply (wf_sh_ok (b_mat b) W)]. cbn [bind].
    rewrite foldM_map. unfold d_cols in C. rewrite C.
    destruct (forM_inv (fun k '(out, co, tmp) =>
        do x <- rd (d_buf (b_mat b)) (addr (d_sh (b_mat b)) I k);
        do nr <- dyn_rows exc dbg x;
        do nc <- dyn_cols exc dbg x;
        do inn <- dense_of_ptr ar exc dbg x;
        do w <- d_copy (fun v => v) inn (d_window out nr nc ro co);
        Ok (with_buf out (d_buf w), co + nc, nr))
      (fun J st => exists buf tmp, st = (with_buf out0 buf, offs cl J, tmp) /\ good buf I J /\
         (1 <= J -> tmp = nth I rl 0)) (length cl) (with_buf out0 buf, 0, tmp)) as (st & E & b2 & t2 & -> & G2 & Ht2).
    + exists buf, tmp. split; [reflexivity|]. split; [exact HG|]. lia.
    + intros J st HJ (b2 & t2 & -> & [L2 G2] & Ht2).
      assert (Ero : ro = offs rl I) by (apply Hro; intros ->; cbn in HJ; lia). subst ro.
      assert (Erd : rd (d_buf (b_mat b)) (addr (d_sh (b_mat b)) I J) = Ok (f I J)).
      { apply rd_ok. apply (view_cell (b_mat b) _ _ f I J V); auto. }
      rewrite Erd. cbn [bind]. destruct (B I J HI HJ) as (x & Ex & Tx & Rx & H0). rewrite Ex.
      destruct (rep_dims ar x _ _ _ Rx) as [Dr Dc]. unfold dyn_rows, dyn_cols. rewrite !exec_member_ok by auto.
      rewrite Dr, Dc. cbn [bind].
      destruct (dense_of_ptr_gen ar exc dbg x _ _ _ Rx Tx H0) as (e & Ee & [We Ve] & Oe & _). rewrite Ee. cbn [bind].
      set (nr := nth I rl 0) in *. set (nc := nth J cl 0) in *. set (ro := offs rl I) in *. set (co := offs cl J) in *.
      pose proof (offs_S rl I HI) as SR. pose proof (offs_S cl J HJ) as SC. fold nr ro in SR. fold nc co in SC.
      pose proof (offs_le_all rl (S I)) as LR. pose proof (offs_le_all cl (S J)) as LC.
      assert (Hin : inside (with_buf out0 b2) nr nc ro co).
      { split; [now apply with_buf_wf|]. split; [reflexivity|]. split; cbn; unfold d_rows, d_cols; cbn; lia. }
      destruct (d_copy_spec (fun v => v) e (d_window (with_buf out0 b2) nr nc ro co) nr nc _ Ve)
        as (b3 & E3 & L3 & Hi3 & Ho3); auto.
      { apply (wf_sh_ok e We). }
      { exact (wf_window_ok _ _ _ _ _ Hin). }
      rewrite E3. cbn [bind]. eexists. split; [reflexivity|].
      exists b3, nr. split; [now rewrite SC|]. split; [|auto]. split; [rewrite L3; exact L2|].
      assert (Ha : forall i j, addr (d_sh (d_window (with_buf out0 b2) nr nc ro co)) i j = addr (d_sh out0) (ro + i) (co + j)).
      { intros. now rewrite window_addr. }
      intros i j Hi Hj Hc.
      destruct (le_lt_dec ro i) as [C1|C1]; [destruct (le_lt_dec co j) as [C2|C2];
        [destruct (le_lt_dec (ro + nr) i) as [C3|C3]; [|destruct (le_lt_dec (co + nc) j) as [C4|C4]]|]|].
      4, 5: rewrite Ho3; [apply G2; auto; lia|];
        intros i2 j2 Hi2 Hj2 EE; rewrite Ha in EE;
        destruct (addr_inj (d_sh out0) (length (d_buf out0)) i j (ro + i2) (co + j2) (wf_sh_ok out0 W0)) as [-> ->]; auto; cbn; lia.
      * lia.
      * lia.
      * replace i with (ro + (i - ro)) at 1 by lia. replace j with (co + (j - co)) at 1 by lia.
        rewrite <- Ha, Hi3 by lia. do 3 f_equal; lia.
    + match goal with |- context [foldM ?h (seq 0 (length cl)) ?s] =>
        change (exists s', (do st <- forM (length cl) h s; let '(out, _, tmp) := st in Ok (out, ro + tmp, tmp)) = Ok s' /\
          (exists buf ro tmp, s' = (with_buf out0 buf, ro, tmp) /\ good buf (S I) 0 /\ (cl <> [] -> ro = offs rl (S I)))) end.
      match goal with |- context [forM (length cl) ?h ?s] =>
        replace (forM (length cl) h s) with (Ok (with_buf out0 b2, offs cl (length cl), t2)) by (symmetry; exact E) end.
      cbn [bind]. eexists. split; [reflexivity|]. exists b2, (ro + t2), t2. split; [reflexivity|]. split.
      * destruct G2 as [L2 G2]. split; auto. intros i j Hi Hj [H|[_ H]]; [|cbn in H; lia].
        apply G2; auto. right. split; [exact H|]. rewrite offs_all. exact Hj.
      * intros Hcl. rewrite Hro by auto. rewrite Ht2; [now rewrite offs_S|]. destruct cl; [congruence|cbn; lia].
  - rewrite E. cbn [bind]. eexists. split; [reflexivity|]. split; [|split; [reflexivity|split; reflexivity]].
    split; [now apply with_buf_wf|]. apply view_from_cells; [reflexivity|reflexivity|].
    intros i j Hi Hj. cbn [with_buf d_buf d_sh]. apply G; auto. left. now rewrite offs_all.
Qed.

Lemma dense_of_blocked_spec exc dbg b rl cl g : rep_blocked ar b rl cl g ->
  (forall x, addD ar x (d0 ar) = x) ->
  exists d, dense_of_blocked ar exc dbg b = Ok d /\ is_mat d (list_sum rl) (list_sum cl) g /\
    d_orient d = ColMajor /\ d_own d = true /\ full_ok d.
Proof.
  intros (U1 & U2 & O & f & M & B) H0. apply dense_of_blocked_gen; auto. exists f. split; [exact M|].
  intros I J HI HJ. destruct (B I J HI HJ) as (d & E & T & R). exists d. repeat (split; auto). now apply law0_all.
Qed.

(** Cutting: if the converter accepts every block, the blocked matrix consists
    of its results. *)
Lemma cut_spec exc dbg th (m : dense D) rl cl (Q : nat -> nat -> dyn F D -> Prop) :
  (forall I J, I < length rl -> J < length cl -> exists x,
     convert ar exc dbg th (d_window m (nth I rl 0) (nth J cl 0) (offs rl I) (offs cl J)) = Ok x /\ Q I J x) ->
  exists b f, cut ar exc dbg th m rl cl = Ok b /\ b_ubr b = d_rows m /\ b_ubc b = d_cols m /\
    d_orient (b_mat b) = ColMajor /\ is_mat (b_mat b) (length rl) (length cl) f /\ full_ok (b_mat b) /\
    forall I J, I < length rl -> J < length cl -> exists x, f I J = Some x /\ Q I J x.
Proof.
  intros HC. unfold cut. cbn zeta.
  set (b0 := blk_new (length rl) (length cl) (d_rows m) (d_cols m)).
  set (B0 := b_mat b0). set (sh := d_sh B0).
  assert (W0 : wf_mem B0).
  { unfold B0, b0, wf_mem, d_rows, d_cols; cbn. repeat split. apply repeat_length. }
  assert (Hsh : sh_ok sh (length (d_buf B0))) by (now apply wf_sh_ok).
  set (Q' := fun I J (v : option (dyn F D)) => exists x, v = Some x /\ Q I J x).
  change (d_rows B0) with (length rl).
  match goal with |- context [forM (length rl) ?g ?s] => set (outer := g) end.
  destruct (forM_inv outer (fun I st => exists buf, st = (with_buf B0 buf, offs rl I) /\ wrote sh (length (d_buf B0)) Q' buf I 0)
     (length rl) (B0, 0)) as (st & E & buf & -> & HW).
  - exists (d_buf B0). split; [reflexivity|]. now apply wrote_0.
  - intros I st HI (buf & -> & HW). unfold outer.
    rewrite (nth_error_nth' rl 0 HI).
    change (d_sh (with_buf B0 buf)) with sh.
    rewrite cur_rc; [|exact HI|apply Hsh]. cbn [bind]. rewrite enum_map_seq, foldM_map.
    change (sh_cols sh) with (length cl).
    destruct (forM_inv (fun k '(B, co) =>
            match nth_error cl k with
            | None => UB OOBRead
            | Some nc =>
                do x <- convert ar exc dbg th (d_window m (nth I rl 0) nc (offs rl I) co);
                do bb <- wr (d_buf B) (addr sh I k) (Some x);
                Ok (with_buf B bb, co + nc)
            end)
       (fun J st => exists buf, st = (with_buf B0 buf, offs cl J) /\ wrote sh (length (d_buf B0)) Q' buf I J)
       (length cl) (with_buf B0 buf, 0)) as (st & E & b2 & -> & HW2).
    + exists buf. auto.
    + intros J st HJ (b2 & -> & HW2). rewrite (nth_error_nth' cl 0 HJ).
      destruct (HC I J HI HJ) as (x & Ex & HQ). rewrite Ex. cbn [bind with_buf d_buf].
      rewrite wr_ok by (rewrite (proj1 HW2); apply Hsh; auto). cbn [bind].
      eexists. split; [reflexivity|]. eexists. split; [rewrite offs_S by auto; reflexivity|].
      apply wrote_step; auto. exists x. auto.
    + match goal with |- context [foldM ?h (seq 0 (length cl)) ?s] =>
        replace (foldM h (seq 0 (length cl)) s) with (Ok (with_buf B0 b2, offs cl (length cl))) by (symmetry; exact E) end.
      cbn [bind]. eexists. split; [reflexivity|]. exists b2. split; [now rewrite offs_S|]. now apply wrote_row.
  - rewrite E. cbn [bind]. destruct (wrote_all sh _ Q' None buf HW) as (f & Hf).
    exists (mkBlocked (with_buf B0 buf) (b_ubr b0) (b_ubc b0)), f. split; [reflexivity|].
    split; [reflexivity|]. split; [reflexivity|]. split; [reflexivity|]. cbn [b_mat]. split; [|split; [reflexivity|]].
    + split; [apply with_buf_wf; [exact W0|exact (proj1 HW)]|].
      apply view_from_cells; [reflexivity|reflexivity|]. intros i j Hi Hj. now apply Hf.
    + intros I J HI HJ. destruct (Hf I J HI HJ) as (_ & x & Ex & HQ). eauto.
Qed.

End Cut.
