(** No overflow in blocked products, conversions and the whole pipeline. *)
From Coq Require Import Reals Lra Psatz.
From Verif Require Import Base BaseLemmas Dense_Model Dense_Spec Dense_Proofs Dense2_Proofs Sparse_Model Sparse_Spec
  Mult_Model Mult_Spec Mult_Proofs Mult2_Proofs Dyn_Model Dyn_Spec Dyn_Proofs Dyn2_Proofs
  Block_Proofs Conv_Spec Conv_Proofs Eval_Spec Eval_Proofs Fp_Spec Fp_Proofs FpConv_Proofs Sparse_Props Dyn_Props FpFin_Proofs FpFin2_Proofs.
#[local] Open Scope R_scope.

(** Every block has finite elements. *)
Definition blocked_fin {F D} (ar : arith F D) (fin : D -> Prop) (b : blocked F D) (rl cl : list nat) : Prop :=
  forall f, is_mat (b_mat b) (length rl) (length cl) f -> forall I J, (I < length rl)%nat -> (J < length cl)%nat ->
    match f I J with Some x => dyn_fin ar fin x (nth I rl 0%nat) (nth J cl 0%nat) | None => False end.

Section P.
Context {F D : Type} (ar : arith F D) (v : D -> R) (fin : D -> Prop) (uD uF eta om : R).
Context (X : rounding ar v fin uD uF eta) (Y : range ar v fin uD uF eta om).
Let Hu : 0 <= uD <= uF /\ 0 <= eta := ro_u _ _ _ _ _ _ X.
#[local] Notation weight := (weight uF eta).
#[local] Notation leaf_fin := (leaf_fin ar fin).
#[local] Notation dyn_fin := (dyn_fin ar fin).
#[local] Notation EuF := (EuF eta).

Lemma rsum_segment o n' n f : (o + n' <= n)%nat -> (forall q, (q < n)%nat -> 0 <= f q) -> rsum n' (fun q => f (o + q)%nat) <= rsum n f.
Proof.
  intros H P. replace n with (o + (n' + (n - o - n')))%nat by lia. rewrite rsum_app, rsum_app.
  assert (0 <= rsum o f) by (apply rsum_pos; intros; apply P; lia).
  assert (0 <= rsum (n - o - n') (fun k => f (o + (n' + k))%nat)) by (apply rsum_pos; intros; apply P; lia). lra.
Qed.
Lemma weight_segment p k k' o n' n A B : (k <= k')%nat -> (o + n' <= n)%nat ->
  (forall q, (q < n)%nat -> 0 <= A q /\ 0 <= B q) ->
  weight p k n' (fun q => A (o + q)%nat) (fun q => B (o + q)%nat) <= weight p k' n A B.
Proof.
  intros Hk Hn P. unfold FpFin_Proofs.weight. apply (size_mono ar v fin uD uF eta X); [exact Hk|].
  pose proof (rsum_segment o n' n (fun q => A q * B q) Hn) as H1. pose proof (rsum_segment o n' n (fun q => A q + B q) Hn) as H2. cbv beta in H1, H2.
  assert (P1 : forall q, (q < n)%nat -> 0 <= A q * B q) by (intros q Hq; destruct (P q Hq); now apply Rmult_le_pos).
  assert (P2 : forall q, (q < n)%nat -> 0 <= A q + B q) by (intros q Hq; destruct (P q Hq); lra).
  specialize (H1 P1). specialize (H2 P2).
  assert (0 <= rsum n' (fun q => A (o + q)%nat * B (o + q)%nat)) by (apply rsum_pos; intros; apply P1; lia).
  assert (0 <= rsum n' (fun q => A (o + q)%nat + B (o + q)%nat)) by (apply rsum_pos; intros; apply P2; lia).
  pose proof (mkl_pos p). pose proof (pos_INR n'). assert (INR n' <= INR n) by (apply le_INR; lia).
  assert (0 <= mkl p * rsum n' (fun q => A (o + q)%nat + B (o + q)%nat)) by (now apply Rmult_le_pos).
  assert (mkl p * rsum n' (fun q => A (o + q)%nat + B (o + q)%nat) <= mkl p * rsum n (fun q => A q + B q)) by (now apply Rmult_le_compat_l).
  split.
  - apply Rplus_le_le_0_compat; [auto|]. apply Rmult_le_pos; lra.
  - apply Rplus_le_compat; [auto|]. apply Rmult_le_compat_l; lra.
Qed.

Lemma mul_blocked_fin ready p dbg a b rl nl cl va wda wfa vb wdb wfb :
  (forall t, In t type_list -> ready t = true) ->
  (forall I K J, I < length rl -> K < length nl -> J < length cl -> fits p (nth I rl 0) (nth K nl 0) (nth J cl 0))%nat ->
  nl <> [] ->
  blocked_real ar v a rl nl va wda wfa -> blocked_real ar v b nl cl vb wdb wfb ->
  blocked_fin ar fin a rl nl -> blocked_fin ar fin b nl cl ->
  (forall i q, (i < list_sum rl)%nat -> (q < list_sum nl)%nat -> 0 <= wda i q + wfa i q) ->
  (forall q j, (q < list_sum nl)%nat -> (j < list_sum cl)%nat -> 0 <= wdb q j + wfb q j) ->
  (p = PMKL -> forall i j q, (i < list_sum rl)%nat -> (j < list_sum cl)%nat -> (q < list_sum nl)%nat ->
     wda i q + wfa i q <= om /\ wdb q j + wfb q j <= om) ->
  (forall i j, (i < list_sum rl)%nat -> (j < list_sum cl)%nat ->
     weight p (list_max nl + length nl + 4) (list_sum nl) (fun q => wda i q + wfa i q) (fun q => wdb q j + wfb q j) <= om) ->
  exists c, mul_blocked ar ready p dbg a b = Ok c /\
    forall f, is_mat (b_mat c) (length rl) (length cl) f -> forall I J, (I < length rl)%nat -> (J < length cl)%nat ->
      forall x, f I J = Some (DL x) -> leaf_fin x (nth I rl 0%nat) (nth J cl 0%nat).
Proof.
  intros Hready Hfit Hnl (Ua1 & Ua2 & Oa & fa & Ma & Ba) (Ub1 & Ub2 & Ob & fb & Mb & Bb) FA0 FB0 PA PB HM HB.
  pose proof (FA0 fa Ma) as FA. pose proof (FB0 fb Mb) as FB.
  pose proof Ma as [Wa Va]. pose proof Mb as [Wb Vb]. pose proof Va as (Ra & Ca & _). pose proof Vb as (Rb & Cb & _).
  unfold mul_blocked. cbn zeta. rewrite Ra, Cb, Ua1, Ub2.
  set (c0 := blk_resize (blk_new 0 0 0 0) (length rl) (length cl) (list_sum rl) (list_sum cl)).
  set (sh := d_sh (b_mat c0)).
  assert (Wc : wf_mem (b_mat c0)).
  { unfold c0, blk_resize, blk_new, wf_mem, d_rows, d_cols; cbn. repeat split.
    destruct (length rl * length cl)%nat eqn:E; cbn; [reflexivity|]. now rewrite repeat_length. }
  assert (Hsh : sh_ok sh (length (d_buf (b_mat c0)))) by (now apply wf_sh_ok).
  assert (Rc : sh_rows sh = length rl) by reflexivity. assert (Cc : sh_cols sh = length cl) by reflexivity.
  match goal with |- context [forM (length rl) (fun i C => forM (length cl) (@?B i) C) (b_mat c0)] => set (body := B) end.
  set (N := list_max nl).
  (* the accumulated block after the inner blocks below [k] *)
  set (AC := fun (I J k : nat) (x : leaf F D) => approx ar v fin uD uF x (nth I rl 0%nat) (nth J cl 0%nat) (N + k + 4)
      (fun i j => SdF p (offs nl k) wda wfa wdb wfb (offs rl I + i) (offs cl J + j))
      (fun i j => SfF p (offs nl k) wda wfa wdb wfb (offs rl I + i) (offs cl J + j))
      (fun i j => EuF p (offs nl k) wda wfa wdb wfb (offs rl I + i) (offs cl J + j))
      (fun i j => rsum (offs nl k) (fun q => va (offs rl I + i)%nat q * vb q (offs cl J + j)%nat)) /\ leaf_fin x (nth I rl 0%nat) (nth J cl 0%nat)).
  set (Q := fun I J (z : option (dyn F D)) => exists x, z = Some (DL x) /\ AC I J (length nl) x).
  destruct (fill_rcQ sh (length (d_buf (b_mat c0))) Q body None Hsh) with (d := b_mat c0) as (bb & f & E & L & Hf); auto.
  { intros i j d Hi Hj Esh Hlen. rewrite Rc in Hi. rewrite Cc in Hj. unfold body.
    assert (Epc : (cur_begin (d_sh d) DRow i + j * cur_stride (d_sh d) DCol = addr sh i j)%nat) by (rewrite Esh; apply lock_rc).
    cbn zeta. rewrite Epc.
    assert (Epb : forall k, (cur_begin (d_sh (b_mat b)) DCol j + k * cur_stride (d_sh (b_mat b)) DRow = addr (d_sh (b_mat b)) k j)%nat)
      by (intros; apply lock_cr).
    rewrite cur_rc; [|unfold d_rows in Ra; lia|apply (wf_sh_ok (b_mat a) Wa)]. cbn [bind].
    rewrite enum_map_seq. unfold d_cols in Ca. rewrite Ca.
    destruct (length nl) as [|K] eqn:EK; [destruct nl; [congruence|discriminate]|].
    cbn [seq map].
    assert (RA : forall k, (k < S K)%nat -> rd (d_buf (b_mat a)) (addr (d_sh (b_mat a)) i k) = Ok (fa i k)).
    { intros k Hk. apply rd_ok. apply (view_cell (b_mat a) _ _ fa i k Va); lia. }
    assert (RB : forall k, (k < S K)%nat -> rd (d_buf (b_mat b)) (addr (d_sh (b_mat b)) k j) = Ok (fb k j)).
    { intros k Hk. apply rd_ok. apply (view_cell (b_mat b) _ _ fb k j Vb); lia. }
    assert (Hpc : (addr sh i j < length (d_buf d))%nat) by (rewrite Hlen; apply Hsh; lia).
    (* one block product *)
    assert (MUL : forall k, (k < S K)%nat -> exists c, mul_ptr ar ready p dbg (fa i k) (fb k j) = Ok (Some (DL c)) /\
       approx ar v fin uD uF c (nth i rl 0%nat) (nth j cl 0%nat) (N + 5)
         (fun u w => rsum (nth k nl 0%nat) (fun q => in_double p (wda (offs rl i + u) (offs nl k + q)) (wfa (offs rl i + u) (offs nl k + q))
             (wdb (offs nl k + q) (offs cl j + w)) (wfb (offs nl k + q) (offs cl j + w))))%nat
         (fun u w => rsum (nth k nl 0%nat) (fun q => in_float p (wda (offs rl i + u) (offs nl k + q)) (wfa (offs rl i + u) (offs nl k + q))
             (wdb (offs nl k + q) (offs cl j + w)) (wfb (offs nl k + q) (offs cl j + w))))%nat
         (fun u w => eta * (4 * INR (nth k nl 0%nat) + 2 * mkl p * rsum (nth k nl 0%nat) (fun q =>
             wda (offs rl i + u)%nat (offs nl k + q)%nat + wfa (offs rl i + u)%nat (offs nl k + q)%nat +
             (wdb (offs nl k + q)%nat (offs cl j + w)%nat + wfb (offs nl k + q)%nat (offs cl j + w)%nat))))
         (fun u w => rsum (nth k nl 0%nat) (fun q => va (offs rl i + u)%nat (offs nl k + q)%nat * vb (offs nl k + q)%nat (offs cl j + w)%nat)) /\ leaf_fin c (nth i rl 0%nat) (nth j cl 0%nat)).
    { intros k Hk. destruct (Ba i k) as (x & Ex & Tx & Rx); [lia|lia|]. destruct (Bb k j) as (y & Ey & Ty & Ry); [lia|lia|].
      rewrite Ex, Ey. unfold mul_ptr. rewrite exec_dyn_2dim_ok, !Hready by auto.
      destruct (approx_mul_dyn ar v fin uD uF eta X p dbg x y _ _ _ _ _ _ _ _ _ Rx Ry) as (c & Ec & Ac); [apply Hfit; lia|].
      exists c. rewrite Ec. cbn [bind]. split; [reflexivity|].
      pose proof (nth_le_max nl k ltac:(lia)) as NM. fold N in NM. split.
      - eapply (approx_weaken ar v fin uD uF eta X); [exact Ac|lia|intros; repeat split; apply Rle_refl].
      - pose proof (FA i k ltac:(lia) ltac:(lia)) as Fx. rewrite Ex in Fx. pose proof (FB k j ltac:(lia) ltac:(lia)) as Fy. rewrite Ey in Fy.
        pose proof (offs_S nl k ltac:(lia)) as SK. pose proof (offs_le_all nl (S k)) as LK.
        pose proof (offs_S rl i Hi) as SI. pose proof (offs_le_all rl (S i)) as LI. pose proof (offs_S cl j Hj) as SJ. pose proof (offs_le_all cl (S j)) as LJ.
        eapply (mul_dyn_fin ar v fin uD uF eta om X Y p dbg x y _ _ _ _ _ _ _ _ _ c Rx Ry); [apply Hfit; lia|exact Fx|exact Fy| | |exact Ec].
        + intros Hp u w q Hu1 Hw1 Hq. apply HM; auto; lia.
        + intros u w Hu1 Hw1. eapply Rle_trans; [|apply (HB (offs rl i + u)%nat (offs cl j + w)%nat); lia].
          apply (weight_segment p (nth k nl 0 + 5)%nat _ (offs nl k) (nth k nl 0%nat) (list_sum nl)
            (fun q => wda (offs rl i + u)%nat q + wfa (offs rl i + u)%nat q) (fun q => wdb q (offs cl j + w)%nat + wfb q (offs cl j + w)%nat)); [lia|lia|].
          intros q Hq. split; [apply PA|apply PB]; lia. }
    rewrite RA by lia. cbn [bind]. rewrite Epb, RB by lia. cbn [bind].
    destruct (MUL 0%nat ltac:(lia)) as (c1 & Ec1 & Rc1 & Lc1). rewrite Ec1. cbn [bind]. rewrite wr_ok by auto. cbn [bind].
    destruct (foldM_inv (fun '(k, pa) C =>
            do w <- rd (d_buf C) (addr sh i j);
            do x <- rd (d_buf (b_mat a)) pa;
            do y <- rd (d_buf (b_mat b)) (cur_begin (d_sh (b_mat b)) DCol j + k * cur_stride (d_sh (b_mat b)) DRow);
            do z <- mul_ptr ar ready p dbg x y;
            do s <- add_ptr ar ready dbg w z;
            do m <- wr (d_buf C) (addr sh i j) s;
            Ok (with_buf C m))
      (fun k C => exists e, C = with_buf d (upd (d_buf d) (addr sh i j) (Some (Some (DL e)))) /\ AC i j (S k) e)
      (map (fun k => (k, addr (d_sh (b_mat a)) i k)) (seq 1 K))
      (with_buf d (upd (d_buf d) (addr sh i j) (Some (Some (DL c1)))))) as (C & EC & e & -> & Re).
    - exists c1. split; [reflexivity|]. unfold AC. rewrite (offs_S nl 0) by lia. cbn [Nat.add] in *.
      split; [|exact Lc1]. eapply (approx_weaken ar v fin uD uF eta X); [exact Rc1|lia|]. intros; repeat split. apply Rle_refl.
    - intros k [k' pa] C Hk (e & -> & Re & Le). rewrite nth_error_map, nth_error_seq in Hk.
      destruct (Nat.ltb_spec k K) as [Hk1|]; [|discriminate]. cbn in Hk. injection Hk as <- <-.
      assert (Erd : rd (d_buf (with_buf d (upd (d_buf d) (addr sh i j) (Some (Some (DL e)))))) (addr sh i j) = Ok (Some (DL e))).
      { apply rd_ok. cbn. now apply nth_error_upd_eq. }
      rewrite Erd. cbn [bind]. rewrite RA by lia. cbn [bind]. rewrite Epb, RB by lia. cbn [bind].
      destruct (MUL (S k) ltac:(lia)) as (c2 & Ec2 & Rc2 & Lc2). rewrite Ec2. cbn [bind].
      unfold add_ptr. rewrite exec_dyn_2dim_ok, !Hready by apply lty_in. cbn [add_dyn].
      assert (Rc2' : approx ar v fin uD uF c2 (nth i rl 0%nat) (nth j cl 0%nat) (N + S k + 4) _ _ _ _)
        by (eapply (approx_weaken ar v fin uD uF eta X); [exact Rc2|lia|intros; repeat split; apply Rle_refl]).
      destruct (approx_plus ar v fin uD uF eta X dbg e c2 _ _ _ _ _ _ _ _ _ _ _ Re Rc2') as (e2 & Ee2 & _ & Re2).
      rewrite Ee2. cbn [bind]. cbn [with_buf d_buf]. rewrite wr_ok by (now rewrite upd_length). cbn [bind].
      rewrite upd_upd. eexists. split; [reflexivity|]. exists e2. split; [reflexivity|].
      unfold AC. split.
      { eapply (approx_weaken ar v fin uD uF eta X); [exact Re2|lia|]. intros u w Hu1 Hw1. cbv beta.
        unfold SdF, SfF, EuF. rewrite (offs_S nl (S k)) by lia. rewrite !rsum_app, plus_INR.
        repeat split. apply Req_le. ring. }
      eapply (plus_fin ar v fin uD uF eta om X Y dbg e c2 _ _ _ _ _ _ _ _ _ _ _ e2 Re Rc2' Le Lc2); [|exact Ee2].
      intros u w Hu1 Hw1. cbv beta.
      pose proof (offs_S nl (S k) ltac:(lia)) as SK. pose proof (offs_le_all nl (S (S k))) as LK.
      pose proof (offs_S rl i Hi) as SI. pose proof (offs_le_all rl (S i)) as LI. pose proof (offs_S cl j Hj) as SJ. pose proof (offs_le_all cl (S j)) as LJ.
      eapply Rle_trans; [|apply (HB (offs rl i + u)%nat (offs cl j + w)%nat); lia].
      eapply Rle_trans; [|apply (weight_segment p (N + S k + 4)%nat _ 0%nat (offs nl (S (S k))) (list_sum nl)
            (fun q => wda (offs rl i + u)%nat q + wfa (offs rl i + u)%nat q) (fun q => wdb q (offs cl j + w)%nat + wfb q (offs cl j + w)%nat)); [unfold N; lia|lia|]].
      2: { intros q Hq. split; [apply PA|apply PB]; lia. }
      unfold FpFin_Proofs.weight. apply Req_le. f_equal. cbn [Nat.add].
      rewrite <- (sum_in p (offs nl (S (S k))) (wda (offs rl i + u)%nat) (wfa (offs rl i + u)%nat) (fun q => wdb q (offs cl j + w)%nat) (fun q => wfb q (offs cl j + w)%nat)).
      unfold SdF, SfF, EuF. rewrite (offs_S nl (S k)) by lia. rewrite !rsum_app, plus_INR. ring.
    - exists (Some (DL e)). split; [exact EC|]. exists e. split; [reflexivity|].
      rewrite map_length, seq_length in Re. unfold AC in *; rewrite <- ?EK in *; exact Re. }
  change (forM (length rl) (fun i => forM (length cl) (body i)) (b_mat c0) = Ok (with_buf (b_mat c0) bb)) in E.
  match goal with |- context [forM (length rl) ?g (b_mat c0)] =>
    replace (forM (length rl) g (b_mat c0)) with (Ok (with_buf (b_mat c0) bb)) by (symmetry; exact E) end. cbn [bind].
  eexists. split; [reflexivity|]. cbn [b_mat]. intros f' M' I J HI HJ x Hx.
  assert (Mf : is_mat (with_buf (b_mat c0) bb) (length rl) (length cl) f).
  { split; [now apply with_buf_wf|]. apply view_from_cells; [reflexivity|reflexivity|].
    intros i j Hi Hj. cbn [with_buf d_buf d_sh]. now apply Hf. }
  destruct (Hf I J HI HJ) as [_ (y & Ey & _ & Ly)].
  rewrite <- (is_mat_uniq _ _ _ _ _ Mf M' I J HI HJ), Ey in Hx. injection Hx as <-. exact Ly.
Qed.

(** ** Conversion and cutting *)
Context (O : ordering ar v fin) (th : threshold D).
Hypothesis (FD : fin (sigD th)) (FF : fin (sigF th)).
Hypothesis small_fin : forall x, fin x -> Rabs (v x) <= v (sigF th) -> fin (toD ar (toF ar x)).

Lemma convert_fin exc dbg m r c f ty :
  view m r c f -> sh_ok (d_sh m) (length (d_buf m)) -> iterable m -> d_orient m = ColMajor -> full_ok m -> sh_sub (d_sh m) = true ->
  (Z.of_nat (r * c) < 2 ^ 63)%Z -> valid_thr ar th -> zero_limits ar th ->
  (forall i j, (i < r)%nat -> (j < c)%nat -> fin (f i j)) ->
  first_of (respects ar th r c f) type_list ty ->
  exists d, convert ar exc dbg th m = Ok d /\ dyn_fin d r c.
Proof.
  intros V SH IT OM FU SUB SZ HT (Z1 & Z2 & Z3 & Z4) Ffin Ht.
  assert (ZA : zero_limits_agree th) by (red; congruence).
  destruct (fm_zero _ _ _ _ _ _ _ _ _ _ _ (ro_D _ _ _ _ _ _ X)) as [F0 V0].
  destruct (fm_zero _ _ _ _ _ _ _ _ _ _ _ (ro_F _ _ _ _ _ _ X)) as [F0f V0f].
  unfold convert. rewrite (convert_first_spec ar m r c f V IT FU exc dbg th type_list ty HT ZA Ht).
  destruct Ht as (pre & post & EL & HR & _). assert (HI : In ty type_list) by (rewrite EL; apply in_elt). clear EL.
  unfold respects in HR. apply andb_prop in HR. destruct HR as [HD HF].
  pose proof (above_none ar v fin O (sigF th) r c f Ffin FF SZ) as NF.
  pose proof HT as (T1 & T2 & T3 & T4).
  pose proof (leaf_chk_spec ar m r c f V SH IT OM FU) as LC.
  assert (SM : forall i j, (i < r)%nat -> (j < c)%nat -> ltD ar (sigF th) (absD ar (f i j)) = false -> fin (toD ar (toF ar (f i j)))).
  { intros i j Hi Hj H. apply small_fin; auto. apply (lt_false ar v fin O); auto. }
  assert (PART : forall t chk, (forall i j, (i < r)%nat -> (j < c)%nat -> is_f t = true -> chk (f i j) = true -> fin (toD ar (toF ar (f i j)))) ->
     forall l, rep_leaf ar l r c (fun i j => part_as ar m t (chk (f i j)) (f i j)) -> leaf_fin l r c).
  { intros t chk H l Rl. apply (leaf_fin_intro ar fin l r c _ Rl). intros i j Hi Hj. specialize (H i j Hi Hj).
    destruct t as [|[]|[]]; cbn in *; rewrite ?SUB; auto; destruct (chk (f i j)); auto. }
  assert (MED : forall i j, (i < r)%nat -> (j < c)%nat -> medium ar th (f i j) = true -> fin (toD ar (toF ar (f i j)))).
  { intros i j Hi Hj H. unfold medium in H. apply andb_prop in H as [_ H]. apply small_fin; auto. exact (proj1 (le_iff ar v fin O _ _ FF (Ffin i j Hi Hj)) H). }
  cbn in HI. repeat (destruct HI as [<-|HI]); try contradiction; cbn [convert_to]; unfold gt_new, range_new; rewrite ?T1, ?T2, ?T3, ?T4; cbn [bind].
  - destruct (LC TZ (fun _ => true)) as (l & E & Tl & Rl). rewrite E. eexists. split; [reflexivity|]. cbn.
    apply (PART TZ (fun _ => true)); [discriminate|exact Rl].
  - destruct (LC (TS EF) (medium ar th)) as (l & E & Tl & Rl). unfold medium in E. rewrite E. eexists. split; [reflexivity|]. cbn.
    apply (PART (TS EF) (medium ar th)); [auto|exact Rl].
  - destruct (LC (TD EF) (fun x => ltD ar (d0 ar) (absD ar x))) as (l & E & Tl & Rl). rewrite E. eexists. split; [reflexivity|]. cbn.
    apply (PART (TD EF) (fun x => ltD ar (d0 ar) (absD ar x))); [|exact Rl]. intros i j Hi Hj _ _. rewrite Z4 in HF. apply SM; auto.
  - destruct (LC (TS ED) (large ar th)) as (l & E & Tl & Rl). unfold large in E. rewrite E. eexists. split; [reflexivity|]. cbn.
    apply (PART (TS ED) (large ar th)); [discriminate|exact Rl].
  - destruct (LC (TS ED) (large ar th)) as (l & E & Tl & Rl). unfold large in E. rewrite E. cbn [bind].
    destruct (LC (TS EF) (medium ar th)) as (l' & E' & Tl' & Rl'). unfold medium in E'. rewrite E'. cbn [bind].
    unfold mm_new. destruct (rep_leaf_dims ar _ _ _ _ Rl) as [-> ->]. destruct (rep_leaf_dims ar _ _ _ _ Rl') as [-> ->].
    rewrite !Nat.eqb_refl. cbn [bind]. eexists. split; [reflexivity|]. cbn. split.
    + apply (PART (TS ED) (large ar th)); [discriminate|exact Rl].
    + apply (PART (TS EF) (medium ar th)); [auto|exact Rl'].
  - destruct (LC (TS ED) (large ar th)) as (l & E & Tl & Rl). unfold large in E. rewrite E. cbn [bind].
    destruct (LC (TD EF) (medium ar th)) as (l' & E' & Tl' & Rl'). unfold medium in E'. rewrite E'. cbn [bind].
    unfold mm_new. destruct (rep_leaf_dims ar _ _ _ _ Rl) as [-> ->]. destruct (rep_leaf_dims ar _ _ _ _ Rl') as [-> ->].
    rewrite !Nat.eqb_refl. cbn [bind]. eexists. split; [reflexivity|]. cbn. split.
    + apply (PART (TS ED) (large ar th)); [discriminate|exact Rl].
    + apply (PART (TD EF) (medium ar th)); [auto|exact Rl'].
  - destruct (LC (TD ED) (fun x => ltD ar (d0 ar) (absD ar x))) as (l & E & Tl & Rl). rewrite E. eexists. split; [reflexivity|]. cbn.
    apply (PART (TD ED) (fun x => ltD ar (d0 ar) (absD ar x))); [discriminate|exact Rl].
Qed.

Lemma cut_fin exc dbg (m : dense D) r c f rl cl (ty : nat -> nat -> mty) :
  is_mat m r c f -> d_orient m = ColMajor -> (Z.of_nat (length (d_buf m)) < 2 ^ 63)%Z ->
  partition rl r -> partition cl c -> valid_thr ar th -> zero_limits ar th ->
  (forall i j, (i < r)%nat -> (j < c)%nat -> fin (f i j)) ->
  (forall I J i j, (I < length rl)%nat -> (J < length cl)%nat -> (i < nth I rl 0)%nat -> (j < nth J cl 0)%nat ->
     first_of (respects ar th (nth I rl 0%nat) (nth J cl 0%nat) (fun i j => f (offs rl I + i)%nat (offs cl J + j)%nat)) type_list
       (ty (offs rl I + i)%nat (offs cl J + j)%nat)) ->
  exists b, cut ar exc dbg th m rl cl = Ok b /\ blocked_fin ar fin b rl cl.
Proof.
  intros M OM HL P1 P2 HT ZL Ffin HTy. pose proof M as [W V]. pose proof V as (ER & EC & _).
  destruct (cut_spec ar exc dbg th m rl cl (fun I J x => dyn_fin x (nth I rl 0%nat) (nth J cl 0%nat))) as (b & fb & E & U1 & U2 & Ob & Mb & _ & HB).
  { intros I J HI HJ. destruct (offs_block rl r I P1 HI) as [H1 H2]. destruct (offs_block cl c J P2 HJ) as [H3 H4].
    assert (IN : inside m (nth I rl 0%nat) (nth J cl 0%nat) (offs rl I) (offs cl J)) by (repeat split; auto; try apply W; lia).
    destruct (col_source_ok _ (src_win _ _ _ _ _ IN H1 H3 HL)) as (SH & IT & OO).
    pose proof (HTy I J 0%nat 0%nat HI HJ ltac:(lia) ltac:(lia)) as T0.
    apply (convert_fin exc dbg _ _ _ _ (ty (offs rl I + 0)%nat (offs cl J + 0)%nat) (window_view m r c f _ _ _ _ M IN) SH IT OO eq_refl eq_refl); auto.
    - assert (length (d_buf m) = r * c)%nat by (destruct W as (_ & _ & W); rewrite W, <- ER, <- EC; reflexivity).
      assert (nth I rl 0 * nth J cl 0 <= r * c)%nat by (apply Nat.mul_le_mono; lia). lia.
    - intros i j Hi Hj. apply Ffin; lia. }
  exists b. split; [exact E|]. intros f' M' I J HI HJ. rewrite <- (is_mat_uniq _ _ _ _ _ Mb M' I J HI HJ).
  destruct (HB I J HI HJ) as (x & -> & Hx). exact Hx.
Qed.

#[local] Notation mag_f := (mag_f uF eta (v (sigF th))).

Lemma pipeline_fin ready p exc dbg (A B : dense D) m n l fa fb rl nl cl (ta tb : nat -> nat -> mty) d h a' b' c :
  (forall t, In t type_list -> ready t = true) ->
  (forall I K J, I < length rl -> K < length nl -> J < length cl -> fits p (nth I rl 0) (nth K nl 0) (nth J cl 0))%nat ->
  is_mat A m n fa -> d_orient A = ColMajor -> (Z.of_nat (length (d_buf A)) < 2 ^ 63)%Z ->
  is_mat B n l fb -> d_orient B = ColMajor -> (Z.of_nat (length (d_buf B)) < 2 ^ 63)%Z ->
  partition rl m -> partition nl n -> partition cl l -> (1 <= n)%nat -> valid_thr ar th -> zero_limits ar th ->
  (forall i j, (i < m)%nat -> (j < n)%nat -> fin (fa i j)) -> (forall i j, (i < n)%nat -> (j < l)%nat -> fin (fb i j)) ->
  (forall I J i j, (I < length rl)%nat -> (J < length nl)%nat -> (i < nth I rl 0)%nat -> (j < nth J nl 0)%nat ->
     first_of (respects ar th (nth I rl 0%nat) (nth J nl 0%nat) (fun i j => fa (offs rl I + i)%nat (offs nl J + j)%nat)) type_list
       (ta (offs rl I + i)%nat (offs nl J + j)%nat)) ->
  (forall I J i j, (I < length nl)%nat -> (J < length cl)%nat -> (i < nth I nl 0)%nat -> (j < nth J cl 0)%nat ->
     first_of (respects ar th (nth I nl 0%nat) (nth J cl 0%nat) (fun i j => fb (offs nl I + i)%nat (offs cl J + j)%nat)) type_list
       (tb (offs nl I + i)%nat (offs cl J + j)%nat)) ->
  let wa i q := mag_d (ta i q) (Rabs (v (fa i q))) + mag_f (ta i q) (Rabs (v (fa i q))) in
  let wb q j := mag_d (tb q j) (Rabs (v (fb q j))) + mag_f (tb q j) (Rabs (v (fb q j))) in
  (p = PMKL -> forall i j q, (i < m)%nat -> (j < l)%nat -> (q < n)%nat -> wa i q <= om /\ wb q j <= om) ->
  (forall i j, (i < m)%nat -> (j < l)%nat -> weight p (list_max nl + length nl + 4) n (fun q => wa i q) (fun q => wb q j) <= om) ->
  cut ar exc dbg th A rl nl = Ok a' -> cut ar exc dbg th B nl cl = Ok b' ->
  mul_blocked ar ready p dbg a' b' = Ok c -> dense_of_blocked ar exc dbg c = Ok d -> is_mat d m l h ->
  forall i j, (i < m)%nat -> (j < l)%nat -> fin (h i j).
Proof.
  intros Hready Hfit MA OA LA MB OB LB P1 P2 P3 Hn HT ZL FA FB HTA HTB wa wb HM HB Ea' Eb' Ec' Ed' Md' i j Hi Hj.
  destruct (cut_real ar v fin uD uF eta X O th FD FF small_fin exc dbg A m n fa rl nl ta MA OA LA P1 P2 HT ZL FA HTA) as (a0 & va & wda & wfa & Ea & Ra & Ga).
  destruct (cut_real ar v fin uD uF eta X O th FD FF small_fin exc dbg B n l fb nl cl tb MB OB LB P2 P3 HT ZL FB HTB) as (b0 & vb & wdb & wfb & Eb & Rb & Gb).
  destruct (cut_fin exc dbg A m n fa rl nl ta MA OA LA P1 P2 HT ZL FA HTA) as (a1 & Ea1 & La).
  destruct (cut_fin exc dbg B n l fb nl cl tb MB OB LB P2 P3 HT ZL FB HTB) as (b1 & Eb1 & Lb).
  rewrite Ea' in Ea, Ea1. injection Ea as <-. injection Ea1 as <-. rewrite Eb' in Eb, Eb1. injection Eb as <-. injection Eb1 as <-.
  assert (Hnl : nl <> []) by (intros ->; destruct P2 as [P2 _]; cbn in P2; lia).
  destruct (mul_blocked_near ar v fin uD uF eta X ready p dbg a' b' rl nl cl va wda wfa vb wdb wfb Hready Hfit Hnl Ra Rb)
    as (c0 & fc & h0 & Ec & U1 & U2 & Oc & Mc & Hc).
  rewrite Ec' in Ec. injection Ec as <-.
  destruct (dense_of_blocked_gen ar exc dbg c rl cl h0 U1 U2 Oc) as (d0' & Ed & Md & _).
  { exists fc. split; [exact Mc|]. intros I J HI HJ. destruct (Hc I J HI HJ) as (x & Ex & Rx & _).
    exists (DL x). split; [exact Ex|]. split; [apply lty_in|]. split; [exact Rx|exact Coq.Init.Logic.I]. }
  rewrite Ed' in Ed. injection Ed as <-. rewrite (proj1 P1), (proj1 P3) in Md.
  rewrite (is_mat_uniq _ _ _ _ _ Md' Md i j Hi Hj).
  destruct (mul_blocked_fin ready p dbg a' b' rl nl cl va wda wfa vb wdb wfb Hready Hfit Hnl Ra Rb La Lb) as (c1 & Ec1 & HF).
  { intros i0 q. rewrite (proj1 P1), (proj1 P2). intros H1 H2. destruct (Ga i0 q H1 H2) as (_ & G1 & G2). lra. }
  { intros q j0. rewrite (proj1 P2), (proj1 P3). intros H1 H2. destruct (Gb q j0 H1 H2) as (_ & G1 & G2). lra. }
  { intros Hp i0 j0 q. rewrite (proj1 P1), (proj1 P2), (proj1 P3). intros H1 H2 H3. destruct (HM Hp i0 j0 q H1 H2 H3) as [Q1 Q2].
    destruct (Ga i0 q H1 H3) as (_ & G1 & G2), (Gb q j0 H3 H2) as (_ & G3 & G4). unfold wa, wb in *. split; lra. }
  { intros i0 j0. rewrite (proj1 P1), (proj1 P2), (proj1 P3). intros H1 H2. eapply Rle_trans; [|apply (HB i0 j0 H1 H2)].
    apply (weight_mono ar v fin uD uF eta X); [lia|..]; intros q Hq.
    - destruct (Ga i0 q H1 Hq) as (_ & G1 & G2). unfold wa. lra.
    - destruct (Gb q j0 Hq H2) as (_ & G1 & G2). unfold wb. lra. }
  rewrite Ec' in Ec1. injection Ec1 as <-.
  pose proof Hi as Hi'. pose proof Hj as Hj'. rewrite <- (proj1 P1) in Hi'. rewrite <- (proj1 P3) in Hj'.
  destruct (offs_find rl i Hi') as (I & HI & Li). destruct (offs_find cl j Hj') as (J & HJ & Lj).
  rewrite offs_S in Li, Lj by auto. destruct (Hc I J HI HJ) as (x & Ex & Rx & _).
  pose proof (HF fc Mc I J HI HJ x Ex _ Rx (i - offs rl I)%nat (j - offs cl J)%nat ltac:(lia) ltac:(lia)) as G. cbv beta in G.
  replace (offs rl I + (i - offs rl I))%nat with i in G by lia. replace (offs cl J + (j - offs cl J))%nat with j in G by lia. exact G.
Qed.
End P.
