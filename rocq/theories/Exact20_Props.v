(** C56: which pictures of block types come out; C54-like refusal in debug builds. *)
From Coq Require Import String NArith Nnat ZifyBool.
From Verif Require Import Base BaseLemmas Dense_Model Dense_Spec Dense_Proofs Striped_Proofs Dense2_Proofs Sparse_Model Sparse_Spec Mult_Spec
  Dyn_Model Dyn_Spec Dyn_Proofs Dyn2_Proofs Block_Proofs IO_Proofs Tools_Model Tools_Spec Tools_Proofs Tools2_Proofs Dense_Props Sparse_Props Dyn_Props Norm_Props Tools3_Proofs Tools_Props.
#[local] Arguments Nat.ltb : simpl never.
#[local] Arguments Nat.leb : simpl never.
#[local] Arguments Nat.eqb : simpl never.

(** A loop that is in step (its state is as [P] says) until it reaches an index at
    which it stops. *)
Lemma foldM_stop {X St} (f : X -> St -> res St) (bad : res St) l :
  (forall k : St -> res St, bind bad k = bad) -> forall (P : nat -> St -> Prop) s, P 0 s ->
  (forall k x s, nth_error l k = Some x -> P k s -> (exists s', f x s = Ok s' /\ P (S k) s') \/ f x s = bad) ->
  (exists k x, nth_error l k = Some x /\ forall s, P k s -> f x s = bad) -> foldM f l s = bad.
Proof.
  intros HB. induction l as [|x t IH]; intros P s Hs Hall (k & y & Hk & Hf); [destruct k; discriminate|]. cbn [foldM].
  destruct (Hall 0 x s eq_refl Hs) as [(s' & E & Hs')|E].
  - destruct k as [|k].
    + injection Hk as ->. rewrite (Hf s Hs). apply HB.
    + rewrite E. cbn [bind]. apply (IH (fun k => P (S k)) s' Hs').
      * intros j z s2 Hj. apply (Hall (S j)). exact Hj.
      * exists k, y. split; auto.
  - rewrite E. apply HB.
Qed.

Section Paint.
Context {D : Type} (zero : D) (shade : nat -> D).

Lemma dset_outside (w : dense D) i j v : d_rows w <= i \/ d_cols w <= j -> dset true w i j v = AssertFail.
Proof.
  intros H. unfold dset, position, cassert. unfold d_rows, d_cols in H.
  destruct (Nat.ltb_spec i (sh_rows (d_sh w))); cbn [bind]; [|reflexivity].
  destruct (Nat.ltb_spec j (sh_cols (d_sh w))); [lia|reflexivity].
Qed.

Lemma paint_block_bad w bw t : iterable w -> sh_ok (d_sh w) (length (d_buf w)) -> 1 <= d_rows w -> 1 <= d_cols w ->
  ~ fits bw (d_rows w) (d_cols w) -> paint_block zero shade true bw t w = AssertFail.
Proof.
  intros I K H1 H2 NF. unfold paint_block, fits in *.
  destruct (all_filler_spec (shade t) w I K) as (b0 & E0 & L0 & P1 & P2). rewrite E0. cbn [bind].
  assert (P0 : painted w b0 (fun _ _ => shade t)) by (split; auto).
  match goal with |- context [forM bw ?g _] => set (body := g) end.
  apply (foldM_stop body AssertFail (seq 0 bw)) with
    (P := fun k x => exists b h, x = with_buf w b /\ painted w b h); [reflexivity|exists b0, (fun _ _ => shade t); auto| |].
  - intros k x s Hk (b & h & -> & P). unfold body. change (d_rows (with_buf w b)) with (d_rows w).
    rewrite nth_error_seq in Hk. destruct (Nat.ltb_spec k bw); [|discriminate]. injection Hk as <-. cbn [Nat.add].
    destruct (le_lt_dec (d_cols w) k) as [C|C].
    + right. destruct (d_rows w) as [|n] eqn:Er; [lia|]. unfold forM. cbn [seq foldM].
      rewrite dset_outside; [reflexivity|]. right. exact C.
    + destruct (paint_column zero true w b h k (d_rows w) K P) as (b1 & Q1 & P3); [lia|auto|].
      rewrite Q1. cbn [bind]. change (d_cols (with_buf w b1)) with (d_cols w).
      destruct (Nat.ltb_spec (d_cols w) bw) as [C1|C1]; [right; reflexivity|].
      destruct (Nat.eq_dec (d_cols w) bw) as [C2|C2].
      * rewrite C2, Nat.sub_diag. left. eexists. split; [reflexivity|]. eauto.
      * destruct (le_lt_dec (d_rows w) k) as [C3|C3].
        -- right. destruct (d_cols w - bw) as [|n] eqn:Ec; [lia|]. cbn [seq foldM]. rewrite dset_outside; [reflexivity|]. left. exact C3.
        -- left. destruct (paint_row zero true w b1 _ k bw (d_cols w - bw) K P3) as (b2 & Q2 & P4); [lia|lia|].
           exists (with_buf w b2). split; [exact Q2|]. eauto.
  - destruct (le_lt_dec bw (d_cols w)) as [C|C].
    + exists (d_rows w), (d_rows w). split; [rewrite nth_error_seq; destruct (Nat.ltb_spec (d_rows w) bw); [reflexivity|lia]|].
      intros s (b & h & -> & P). unfold body. change (d_rows (with_buf w b)) with (d_rows w).
      destruct (paint_column zero true w b h (d_rows w) (d_rows w) K P) as (b1 & Q1 & P3); [lia|auto|].
      rewrite Q1. cbn [bind]. change (d_cols (with_buf w b1)) with (d_cols w).
      destruct (Nat.ltb_spec (d_cols w) bw) as [C1|C1]; [reflexivity|].
      destruct (d_cols w - bw) as [|n] eqn:Ec; [lia|]. cbn [seq foldM]. rewrite dset_outside; [reflexivity|]. left. apply Nat.le_refl.
    + exists 0, 0. split; [rewrite nth_error_seq; destruct (Nat.ltb_spec 0 bw); [reflexivity|lia]|].
      intros s (b & h & -> & P). unfold body. change (d_rows (with_buf w b)) with (d_rows w).
      destruct (paint_column zero true w b h 0 (d_rows w) K P) as (b1 & Q1 & P3); [lia|auto|].
      rewrite Q1. cbn [bind]. change (d_cols (with_buf w b1)) with (d_cols w).
      destruct (Nat.ltb_spec (d_cols w) bw) as [C1|C1]; [reflexivity|lia].
Qed.

Lemma fits_dec bw r c : fits bw r c \/ ~ fits bw r c.
Proof. unfold fits. lia. Qed.

Lemma type_blocks_bad rl cl bw (types : dense nat) (dims : dense (nat * nat)) ty :
  is_mat types (length rl) (length cl) ty ->
  is_mat dims (length rl) (length cl) (fun I J => (nth I rl 0, nth J cl 0)) ->
  (forall n, In n rl \/ In n cl -> 1 <= n) ->
  (Z.of_nat (list_sum rl * list_sum cl) < 2 ^ 63)%Z ->
  (exists r c, In r rl /\ In c cl /\ ~ fits bw r c) ->
  type_blocks zero shade true (list_sum rl) (list_sum cl) bw types dims = AssertFail.
Proof.
  intros MT MD HB HS (rb & cb & Irb & Icb & NF). unfold type_blocks. cbn zeta.
  apply In_nth with (d := 0) in Irb, Icb. destruct Irb as (Ib & HIb & <-). destruct Icb as (Jb & HJb & <-).
  pose proof MT as [WT VT]. pose proof VT as (RT & CT & _). pose proof MD as [WD VD]. pose proof VD as (RD & CD & _).
  set (out0 := @d_new D ColMajor (list_sum rl) (list_sum cl)).
  assert (W0 : wf_mem out0) by apply d_new_wf.
  assert (L0 : length (d_buf out0) = list_sum rl * list_sum cl) by apply repeat_length.
  rewrite RT.
  match goal with |- context [forM (length rl) ?h ?s] => set (outer := h) end.
  set (inner := fun (I k : nat) '((out, co, tmp) : dense D * nat * nat) =>
          do t <- rd (d_buf types) (addr (d_sh types) I k);
          do p <- rd (d_buf dims) (cur_begin (d_sh dims) DRow I + k * cur_stride (d_sh dims) DCol);
          do w <- paint_block zero shade true bw t (d_window out (fst p) (snd p) (offs rl I) co);
          @Ok (dense D * nat * nat) (with_buf out (d_buf w), co + snd p, fst p)).
  set (P := fun (I : nat) (st : dense D * nat * nat) => exists buf tmp, st = (with_buf out0 buf, offs rl I, tmp) /\ length buf = length (d_buf out0)).
  set (Q := fun (I J : nat) (st : dense D * nat * nat) => exists buf tmp, st = (with_buf out0 buf, offs cl J, tmp) /\ length buf = length (d_buf out0) /\
         (1 <= J -> tmp = nth I rl 0)).
  assert (Step : forall I J st, I < length rl -> J < length cl -> Q I J st ->
     (fits bw (nth I rl 0) (nth J cl 0) /\ exists st', inner I J st = Ok st' /\ Q I (S J) st') \/
     (~ fits bw (nth I rl 0) (nth J cl 0) /\ inner I J st = AssertFail)).
  { intros I J st HI HJ (b2 & t2 & -> & L2 & Ht2). unfold inner.
    assert (Erd : rd (d_buf types) (addr (d_sh types) I J) = Ok (ty I J)).
    { apply rd_ok. apply (view_cell types _ _ ty I J VT); auto. }
    rewrite Erd. cbn [bind]. rewrite lock_rc.
    assert (Erd2 : rd (d_buf dims) (addr (d_sh dims) I J) = Ok (nth I rl 0, nth J cl 0)).
    { apply rd_ok. apply (view_cell dims _ _ _ I J VD); auto. }
    rewrite Erd2. cbn [bind fst snd].
    set (nr := nth I rl 0) in *. set (nc := nth J cl 0) in *. set (ro := offs rl I) in *. set (co := offs cl J) in *.
    assert (B1 : 1 <= nr) by (apply HB; left; now apply nth_In).
    assert (B2 : 1 <= nc) by (apply HB; right; now apply nth_In).
    pose proof (offs_S rl I HI) as SR. pose proof (offs_S cl J HJ) as SC. fold nr ro in SR. fold nc co in SC.
    pose proof (offs_le_all rl (S I)) as LR. pose proof (offs_le_all cl (S J)) as LC.
    assert (Hin : inside (with_buf out0 b2) nr nc ro co).
    { split; [now apply with_buf_wf|]. split; [reflexivity|]. split; cbn; unfold d_rows, d_cols; cbn; lia. }
    set (w := d_window (with_buf out0 b2) nr nc ro co).
    assert (IW : iterable w) by (apply window_iterable; auto; cbn [with_buf d_buf]; rewrite L2, L0; exact HS).
    assert (SW : sh_ok (d_sh w) (length (d_buf w))) by exact (wf_window_ok _ _ _ _ _ Hin).
    destruct (fits_dec bw nr nc) as [F|F].
    - left. split; [exact F|].
      destruct (paint_block_ok zero shade true w bw (ty I J) IW SW F) as (b3 & E3 & L3 & _).
      rewrite E3. cbn [bind]. eexists. split; [reflexivity|].
      exists b3, nr. split; [now rewrite SC|]. split; [rewrite L3; exact L2|auto].
    - right. split; [exact F|]. rewrite (paint_block_bad w bw (ty I J) IW SW); auto. }
  assert (Row : forall I st, I < length rl -> P I st ->
     ((forall J, J < length cl -> fits bw (nth I rl 0) (nth J cl 0)) /\ exists st', outer I st = Ok st' /\ P (S I) st') \/
     ((exists J, J < length cl /\ ~ fits bw (nth I rl 0) (nth J cl 0)) /\ outer I st = AssertFail)).
  { intros I st HI (buf & tmp & -> & L). unfold outer.
    rewrite cur_rc; [|unfold d_rows in RT; lia|apply (wf_sh_ok types WT)]. cbn [bind].
    rewrite enum_map_seq, foldM_map. unfold d_cols in CT. rewrite CT.
    assert (Ex : (forall J, J < length cl -> fits bw (nth I rl 0) (nth J cl 0)) \/ exists J, J < length cl /\ ~ fits bw (nth I rl 0) (nth J cl 0)).
    { clear - HI. assert (G : forall n, (forall J, J < n -> fits bw (nth I rl 0) (nth J cl 0)) \/ exists J, J < n /\ ~ fits bw (nth I rl 0) (nth J cl 0)).
      { induction n as [|n [IH|(J & HJ & F)]]; [left; lia| |right; exists J; split; auto; lia].
        destruct (fits_dec bw (nth I rl 0) (nth n cl 0)) as [F|F]; [|right; exists n; split; auto; lia].
        left. intros J HJ. destruct (Nat.eq_dec J n) as [->|]; [exact F|apply IH; lia]. }
      apply G. }
    destruct Ex as [All|Bad].
    - left. split; [exact All|].
      destruct (forM_inv (inner I) (Q I) (length cl) (with_buf out0 buf, 0, tmp)) as (st & E & b2 & t2 & -> & L2 & Ht2).
      + exists buf, tmp. split; [reflexivity|]. split; [exact L|lia].
      + intros J st HJ HQ. destruct (Step I J st HI HJ HQ) as [[_ H]|[F _]]; [exact H|]. elim F. now apply All.
      + unfold forM in E. 
        match goal with |- context [foldM ?h (seq 0 (length cl)) ?s] =>
          change (exists st', (do st <- foldM (inner I) (seq 0 (length cl)) s; let '(out, _, tmp) := st in Ok (out, offs rl I + tmp, tmp)) = Ok st' /\ P (S I) st') end.
        rewrite E. cbn [bind]. eexists. split; [reflexivity|]. exists b2, t2. split; [|exact L2].
        rewrite Ht2 by lia. now rewrite offs_S.
    - right. split; [exact Bad|].
      assert (E : foldM (inner I) (seq 0 (length cl)) (with_buf out0 buf, 0, tmp) = AssertFail).
      { apply foldM_stop with (P := Q I); [reflexivity| | |].
        - exists buf, tmp. split; [reflexivity|]. split; [exact L|lia].
        - intros k x s Hk HQ. rewrite nth_error_seq in Hk. destruct (Nat.ltb_spec k (length cl)); [|discriminate]. injection Hk as <-. cbn [Nat.add].
          destruct (Step I k s HI H HQ) as [[_ H1]|[_ H1]]; auto.
        - destruct Bad as (J & HJ & F). exists J, J. split; [rewrite nth_error_seq; destruct (Nat.ltb_spec J (length cl)); [reflexivity|lia]|].
          intros s HQ. destruct (Step I J s HI HJ HQ) as [[H1 _]|[_ H1]]; [contradiction|exact H1]. }
      match goal with |- context [foldM ?h (seq 0 (length cl)) ?s] =>
          change ((do st <- foldM (inner I) (seq 0 (length cl)) s; let '(out, _, tmp) := st in Ok (out, offs rl I + tmp, tmp)) = AssertFail) end.
      now rewrite E. }
  assert (E : forM (length rl) outer (out0, 0, 0) = AssertFail).
  { unfold forM. apply foldM_stop with (P := P); [reflexivity| | |].
    - exists (d_buf out0), 0. split; [|reflexivity]. reflexivity.
    - intros k x s Hk HP. rewrite nth_error_seq in Hk. destruct (Nat.ltb_spec k (length rl)); [|discriminate]. injection Hk as <-. cbn [Nat.add].
      destruct (Row k s H HP) as [[_ H1]|[_ H1]]; auto.
    - exists Ib, Ib. split; [rewrite nth_error_seq; destruct (Nat.ltb_spec Ib (length rl)); [reflexivity|lia]|].
      intros s HP. destruct (Row Ib s HIb HP) as [[H1 _]|[_ H1]]; [elim NF; now apply H1|exact H1]. }
  rewrite E. reflexivity.
Qed.
End Paint.

(** C56.  In a debug build, for every blocked matrix without empty blocks and every
    border width: the picture is drawn if the border leaves no block - every block is
    at least as wide as the border, and at least as high or exactly as wide - and then
    it is the picture promised; else a failed assertion. *)
Theorem C56_border_exact :
  forall (F DD D : Type) (ar : arith F DD) (zero : D) (shade : nat -> D) exc (b : blocked F DD) rl cl g bw,
    rep_blocked ar b rl cl g ->
    (forall n, In n rl \/ In n cl -> 1 <= n) -> (Z.of_nat (list_sum rl * list_sum cl) < 2 ^ 63)%Z ->
    let inside r c := bw <= c /\ (bw <= r \/ c = bw) in
    ((forall r c, In r rl -> In c cl -> inside r c) /\
      exists f out, blocks_are b (length rl) (length cl) f /\
      type_picture zero shade exc true (list_sum rl) (list_sum cl) bw b = Ok out /\
      is_mat out (list_sum rl) (list_sum cl) (fun i j =>
        let '(bi, i') := locate rl i in let '(bj, j') := locate cl j in
        block_pixel zero shade bw (type_index (f bi bj)) i' j') /\ full_ok out) \/
    ((exists r c, In r rl /\ In c cl /\ ~ inside r c) /\
      type_picture zero shade exc true (list_sum rl) (list_sum cl) bw b = AssertFail).
Proof.
  intros F DD D ar zero shade exc b rl cl g bw R HB HS inside.
  destruct (rep_blocked_blocks ar b rl cl g R) as (O & f & M & B).
  destruct (C48_type_matrix F DD b _ _ f M O) as (t & Et & Mt & _).
  destruct (C48_dimension_matrix F DD ar exc true b rl cl g R) as (d & Ed & Md & _).
  assert (Dec : (forall r c, In r rl -> In c cl -> fits bw r c) \/ exists r c, In r rl /\ In c cl /\ ~ fits bw r c).
  { clear. induction rl as [|r rl [IH|(r' & c' & H1 & H2 & H3)]]; [left; intros r c []| |right; exists r', c'; repeat split; auto; now right].
    assert (G : (forall c, In c cl -> fits bw r c) \/ exists c, In c cl /\ ~ fits bw r c).
    { clear. induction cl as [|c cl [IH|(c' & H1 & H2)]]; [left; intros c []| |right; exists c'; split; auto; now right].
      destruct (fits_dec bw r c) as [H|H]; [left|right; exists c; split; auto; now left].
      intros c' [<-|H']; auto. }
    destruct G as [G|(c & H1 & H2)]; [left|right; exists r, c; repeat split; auto; now left].
    intros r' c [<-|H1] H2; auto. }
  destruct Dec as [All|Bad].
  - left. split; [exact All|].
    destruct (type_blocks_ok zero shade true rl cl bw t d _ _ Mt Md
      ltac:(intros r c Hr Hc; split; [auto|split; [auto|now apply All]]) HS (locate_tiled zero shade rl cl _ bw)) as (out & E & Mo & _ & Fo).
    exists f, out. split; [exact M|]. split; [|split; [exact Mo|exact Fo]].
    unfold type_picture. rewrite Et. cbn [bind]. rewrite Ed. cbn [bind]. exact E.
  - right. split; [exact Bad|]. unfold type_picture. rewrite Et. cbn [bind]. rewrite Ed. cbn [bind].
    exact (type_blocks_bad zero shade rl cl bw t d _ Mt Md HB HS Bad).
Qed.
Print Assumptions C56_border_exact.

(** A border exactly as wide as the blocks and higher than they are is drawn; a border
    wider than one block of the two is not. *)
Example C56_exact_nonvacuous :
  rep_blocked zar nb [2] [2; 1] nb_g /\ (forall n, In n [2] \/ In n [2; 1] -> 1 <= n) /\
  (exists out, type_picture 0 (fun t => 100 + t) true true 2 3 1 nb = Ok out) /\
  type_picture 0 (fun t => 100 + t) true true 2 3 2 nb = AssertFail.
Proof.
  split; [exact nb_rep|]. split; [cbn; intuition lia|]. split; [eexists; vm_compute; reflexivity|vm_compute; reflexivity].
Qed.
