(** Proofs about Tools_Model.v: the picture of the block types; providers. *)
From Coq Require Import String NArith Nnat ZifyBool.
From Verif Require Import Base BaseLemmas Dense_Model Dense_Spec Dense_Proofs Striped_Proofs Dense2_Proofs Sparse_Model Sparse_Spec Mult_Spec
  Dyn_Model Dyn_Spec Dyn_Proofs Dyn2_Proofs Block_Proofs IO_Proofs Tools_Model Tools_Spec Tools_Proofs Tools2_Proofs.
#[local] Arguments Nat.ltb : simpl never.
#[local] Arguments Nat.leb : simpl never.
#[local] Arguments Nat.eqb : simpl never.

Section Paint.
Context {D : Type} (zero : D) (shade : nat -> D) (dbg : bool).

(** The matrix or window [w] now has memory [b] and shows [h]; nothing else was
    touched. *)
Definition painted (w : dense D) (b : buf D) (h : nat -> nat -> D) : Prop :=
  length b = length (d_buf w) /\
  (forall i j, i < d_rows w -> j < d_cols w -> nth_error b (addr (d_sh w) i j) = Some (Some (h i j))) /\
  (forall a, (forall i j, i < d_rows w -> j < d_cols w -> a <> addr (d_sh w) i j) -> nth_error b a = nth_error (d_buf w) a).

Lemma painted_ext w b h h' : (forall i j, i < d_rows w -> j < d_cols w -> h i j = h' i j) -> painted w b h -> painted w b h'.
Proof. intros E (L & H1 & H2). split; auto. split; auto. intros i j Hi Hj. rewrite <- E by auto. auto. Qed.

Lemma painted_set w b h i j v : sh_ok (d_sh w) (length (d_buf w)) -> painted w b h -> i < d_rows w -> j < d_cols w ->
  exists b', dset dbg (with_buf w b) i j v = Ok (with_buf w b') /\ painted w b' (upd2 h i j v).
Proof.
  intros K (L & H1 & H2) Hi Hj. exists (upd b (addr (d_sh w) i j) (Some v)).
  assert (Ha : addr (d_sh w) i j < length b) by (rewrite L; now apply K).
  split.
  - rewrite dset_in by auto. cbn [with_buf d_buf d_sh]. now rewrite wr_ok.
  - split; [now rewrite upd_length|]. split.
    + intros i' j' Hi' Hj'. unfold upd2. destruct ((i' =? i) && (j' =? j)) eqn:Q.
      * assert (i' = i /\ j' = j) as [-> ->] by lia. now apply nth_error_upd_eq.
      * rewrite nth_error_upd_ne; auto. intros E. destruct (addr_inj (d_sh w) _ i j i' j' K); auto; lia.
    + intros a Ha'. rewrite nth_error_upd_ne; auto. intros E. apply (Ha' i j Hi Hj). auto.
Qed.

Lemma paint_column w b h i n : sh_ok (d_sh w) (length (d_buf w)) -> painted w b h -> i < d_cols w -> n <= d_rows w ->
  exists b', forM n (fun j w => dset dbg w j i zero) (with_buf w b) = Ok (with_buf w b') /\
    painted w b' (fun a c => if (a <? n) && (c =? i) then zero else h a c).
Proof.
  intros K P Hi Hn.
  destruct (forM_inv (fun j w => dset dbg w j i zero) (fun k x => exists b', x = with_buf w b' /\
     painted w b' (fun a c => if (a <? k) && (c =? i) then zero else h a c)) n (with_buf w b)) as (x & E & b' & -> & Q).
  - exists b. split; auto.
  - intros k x Hk (b1 & -> & P1). destruct (painted_set w b1 _ k i zero K P1) as (b2 & E2 & P2); [lia|auto|].
    exists (with_buf w b2). split; auto. exists b2. split; auto. eapply painted_ext; [|exact P2].
    intros a c Ha Hc. unfold upd2. repeat match goal with |- context [if ?q then _ else _] => destruct q eqn:? end; try reflexivity; lia.
  - eauto.
Qed.
Lemma paint_row w b h i lo n : sh_ok (d_sh w) (length (d_buf w)) -> painted w b h -> i < d_rows w -> lo + n <= d_cols w ->
  exists b', foldM (fun j w => dset dbg w i j zero) (seq lo n) (with_buf w b) = Ok (with_buf w b') /\
    painted w b' (fun a c => if (a =? i) && (lo <=? c) && (c <? lo + n) then zero else h a c).
Proof.
  intros K P Hi Hn.
  destruct (foldM_inv (fun j w => dset dbg w i j zero) (fun k x => exists b', x = with_buf w b' /\
     painted w b' (fun a c => if (a =? i) && (lo <=? c) && (c <? lo + k) then zero else h a c)) (seq lo n) (with_buf w b)) as (x & E & b' & -> & Q).
  - exists b. split; auto. eapply painted_ext; [|exact P]. intros a c Ha Hc.
    repeat match goal with |- context [if ?q then _ else _] => destruct q eqn:? end; try reflexivity; lia.
  - intros k j x Hk (b1 & -> & P1). rewrite nth_error_seq in Hk. destruct (Nat.ltb_spec k n); [|discriminate]. injection Hk as <-.
    destruct (painted_set w b1 _ i (lo + k) zero K P1) as (b2 & E2 & P2); [auto|lia|].
    exists (with_buf w b2). split; auto. exists b2. split; auto. eapply painted_ext; [|exact P2].
    intros a c Ha Hc. unfold upd2. repeat match goal with |- context [if ?q then _ else _] => destruct q eqn:? end; try reflexivity; lia.
  - rewrite seq_length in Q. eauto.
Qed.

(** A border of width [bw] can be drawn along the upper and left side of a block with [r]
    rows and [c] columns: nothing is written outside the block. *)
Definition fits (bw r c : nat) : Prop := bw <= c /\ (bw <= r \/ c = bw).

Lemma paint_block_ok w bw t : iterable w -> sh_ok (d_sh w) (length (d_buf w)) -> fits bw (d_rows w) (d_cols w) ->
  exists b, paint_block zero shade dbg bw t w = Ok (with_buf w b) /\ painted w b (block_pixel zero shade bw t).
Proof.
  intros I K [Hc Hr]. unfold paint_block.
  destruct (all_filler_spec (shade t) w I K) as (b0 & E0 & L0 & H1 & H2). rewrite E0. cbn [bind].
  match goal with |- context [forM bw ?g _] => set (body := g) end.
  destruct (forM_inv body (fun k x => exists b, x = with_buf w b /\
    painted w b (fun a c => if (c <? k) || ((a <? k) && (bw <=? c)) then zero else shade t)) bw (with_buf w b0)) as (x & E & b & -> & P).
  - exists b0. split; auto. split; auto. 
  - intros k x Hk (b & -> & P). unfold body. change (d_rows (with_buf w b)) with (d_rows w).
    destruct (paint_column w b _ k (d_rows w) K P) as (b1 & E1 & P1); [lia|auto|].
    rewrite E1. cbn [bind]. change (d_cols (with_buf w b1)) with (d_cols w).
    destruct (Nat.ltb_spec (d_cols w) bw); [lia|].
    assert (PR : exists b', foldM (fun j w => dset dbg w k j zero) (seq bw (d_cols w - bw)) (with_buf w b1) = Ok (with_buf w b') /\
      painted w b' (fun a c => if (a =? k) && (bw <=? c) && (c <? bw + (d_cols w - bw)) then zero
                               else if (a <? d_rows w) && (c =? k) then zero
                               else if (c <? k) || ((a <? k) && (bw <=? c)) then zero else shade t)).
    { destruct Hr as [Hr|Hr].
      - apply paint_row; [exact K|exact P1|lia|lia].
      - rewrite Hr, Nat.sub_diag. exists b1. split; [reflexivity|]. eapply painted_ext; [|exact P1].
        intros a c Ha Hcc. repeat match goal with |- context [if ?q then _ else _] => destruct q eqn:? end; try reflexivity; lia. }
    destruct PR as (b2 & E2 & P2).
    exists (with_buf w b2). split; auto. exists b2. split; auto. eapply painted_ext; [|exact P2].
    intros a c Ha Hcc. cbn. repeat match goal with |- context [if ?q then _ else _] => destruct q eqn:? end; try reflexivity; lia.
  - exists b. split; [exact E|]. eapply painted_ext; [|exact P]. intros a c Ha Hcc. unfold block_pixel.
    repeat match goal with |- context [if ?q then _ else _] => destruct q eqn:? end; try reflexivity; lia.
Qed.

(** [g] is, block by block, the block pixel. *)
Definition tiled (rl cl : list nat) (ty : nat -> nat -> nat) (bw : nat) (g : nat -> nat -> D) : Prop :=
  forall I J i j, I < length rl -> J < length cl -> i < nth I rl 0 -> j < nth J cl 0 ->
    g (offs rl I + i) (offs cl J + j) = block_pixel zero shade bw (ty I J) i j.

Lemma type_blocks_ok rl cl bw (types : dense nat) (dims : dense (nat * nat)) ty g :
  is_mat types (length rl) (length cl) ty ->
  is_mat dims (length rl) (length cl) (fun I J => (nth I rl 0, nth J cl 0)) ->
  (forall r c, In r rl -> In c cl -> 1 <= r /\ 1 <= c /\ fits bw r c) ->
  (Z.of_nat (list_sum rl * list_sum cl) < 2 ^ 63)%Z ->
  tiled rl cl ty bw g ->
  exists out, type_blocks zero shade dbg (list_sum rl) (list_sum cl) bw types dims = Ok out /\
    is_mat out (list_sum rl) (list_sum cl) g /\ d_orient out = ColMajor /\ full_ok out.
Proof.
  intros MT MD HB HS HT. unfold type_blocks. cbn zeta.
  pose proof MT as [WT VT]. pose proof VT as (RT & CT & _). pose proof MD as [WD VD]. pose proof VD as (RD & CD & _).
  set (out0 := @d_new D ColMajor (list_sum rl) (list_sum cl)).
  assert (W0 : wf_mem out0) by apply d_new_wf.
  assert (L0 : length (d_buf out0) = list_sum rl * list_sum cl) by apply repeat_length.
  set (good := fun (buf : buf D) (I J : nat) => length buf = length (d_buf out0) /\
     forall i j, i < list_sum rl -> j < list_sum cl -> (i < offs rl I \/ (i < offs rl (S I) /\ j < offs cl J)) ->
       nth_error buf (addr (d_sh out0) i j) = Some (Some (g i j))).
  rewrite RT.
  match goal with |- context [forM (length rl) ?h ?s] => set (outer := h) end.
  destruct (forM_inv outer (fun I st => exists buf ro tmp, st = (with_buf out0 buf, ro, tmp) /\ good buf I 0 /\
      (cl <> [] -> ro = offs rl I)) (length rl) (out0, 0, 0)) as (st & E & buf & ro & tmp & -> & [L G] & _).
  - exists (d_buf out0), 0, 0. split; [reflexivity|]. split; [|auto]. split; [reflexivity|].
    intros i j _ _ [H|[_ H]]; cbn in H; lia.
  - intros I st HI (buf & ro & tmp & -> & HG & Hro). unfold outer.
    rewrite cur_rc; [|unfold d_rows in RT; lia|apply (wf_sh_ok types WT)]. cbn [bind].
    rewrite enum_map_seq, foldM_map. unfold d_cols in CT. rewrite CT.
    destruct (forM_inv (fun k '(out, co, tmp) =>
          do t <- rd (d_buf types) (addr (d_sh types) I k);
          do p <- rd (d_buf dims) (cur_begin (d_sh dims) DRow I + k * cur_stride (d_sh dims) DCol);
          do w <- paint_block zero shade dbg bw t (d_window out (fst p) (snd p) ro co);
          Ok (with_buf out (d_buf w), co + snd p, fst p))
      (fun J st => exists buf tmp, st = (with_buf out0 buf, offs cl J, tmp) /\ good buf I J /\
         (1 <= J -> tmp = nth I rl 0)) (length cl) (with_buf out0 buf, 0, tmp)) as (st & E & b2 & t2 & -> & G2 & Ht2).
    + exists buf, tmp. split; [reflexivity|]. split; [exact HG|]. lia.
    + intros J st HJ (b2 & t2 & -> & [L2 G2] & Ht2).
      assert (Ero : ro = offs rl I) by (apply Hro; intros ->; cbn in HJ; lia). subst ro.
      assert (Erd : rd (d_buf types) (addr (d_sh types) I J) = Ok (ty I J)).
      { apply rd_ok. apply (view_cell types _ _ ty I J VT); auto. }
      rewrite Erd. cbn [bind]. rewrite lock_rc.
      assert (Erd2 : rd (d_buf dims) (addr (d_sh dims) I J) = Ok (nth I rl 0, nth J cl 0)).
      { apply rd_ok. apply (view_cell dims _ _ _ I J VD); auto. }
      rewrite Erd2. cbn [bind fst snd].
      set (nr := nth I rl 0) in *. set (nc := nth J cl 0) in *. set (ro := offs rl I) in *. set (co := offs cl J) in *.
      destruct (HB nr nc) as (B1 & B2 & B3); [now apply nth_In|now apply nth_In|].
      pose proof (offs_S rl I HI) as SR. pose proof (offs_S cl J HJ) as SC. fold nr ro in SR. fold nc co in SC.
      pose proof (offs_le_all rl (S I)) as LR. pose proof (offs_le_all cl (S J)) as LC.
      assert (Hin : inside (with_buf out0 b2) nr nc ro co).
      { split; [now apply with_buf_wf|]. split; [reflexivity|]. split; cbn; unfold d_rows, d_cols; cbn; lia. }
      set (w := d_window (with_buf out0 b2) nr nc ro co).
      destruct (paint_block_ok w bw (ty I J)) as (b3 & E3 & L3 & Hi3 & Ho3); auto.
      { apply window_iterable; auto. cbn [with_buf d_buf]. rewrite L2, L0. exact HS. }
      { exact (wf_window_ok _ _ _ _ _ Hin). }
      rewrite E3. cbn [bind]. eexists. split; [reflexivity|].
      exists b3, nr. split; [now rewrite SC|]. split; [|auto]. split; [rewrite L3; exact L2|].
      assert (Ha : forall i j, addr (d_sh w) i j = addr (d_sh out0) (ro + i) (co + j)).
      { intros. unfold w. now rewrite window_addr. }
      change (d_rows w) with nr in *. change (d_cols w) with nc in *. change (d_buf w) with b2 in *.
      intros i j Hi Hj Hc.
      destruct (le_lt_dec ro i) as [C1|C1]; [destruct (le_lt_dec co j) as [C2|C2];
        [destruct (le_lt_dec (ro + nr) i) as [C3|C3]; [|destruct (le_lt_dec (co + nc) j) as [C4|C4]]|]|].
      4, 5: rewrite Ho3; [apply G2; auto; lia|];
        intros i2 j2 Hi2 Hj2 EE; rewrite Ha in EE;
        destruct (addr_inj (d_sh out0) (length (d_buf out0)) i j (ro + i2) (co + j2) (wf_sh_ok out0 W0)) as [-> ->]; auto; cbn; lia.
      * lia.
      * lia.
      * replace i with (ro + (i - ro)) by lia. replace j with (co + (j - co)) by lia.
        rewrite <- Ha, Hi3 by lia. do 2 f_equal. symmetry. apply HT; auto; fold nr nc; lia.
    + match goal with |- context [foldM ?h (seq 0 (length cl)) ?s] =>
        change (exists s', (do st <- forM (length cl) h s; let '(out, _, tmp) := st in Ok (out, ro + tmp, tmp)) = Ok s' /\
          (exists buf ro tmp, s' = (with_buf out0 buf, ro, tmp) /\ good buf (S I) 0 /\ (cl <> [] -> ro = offs rl (S I)))) end.
      match goal with |- context [forM (length cl) ?h ?s] =>
        replace (forM (length cl) h s) with (Ok (with_buf out0 b2, offs cl (length cl), t2)) by (symmetry; exact E) end.
      cbn [bind]. eexists. split; [reflexivity|]. exists b2, (ro + t2), t2. split; [reflexivity|]. split.
      * destruct G2 as [L2 G2]. split; auto. intros i j Hi Hj [H|[_ H]]; [|cbn in H; lia].
        apply G2; auto. right. split; [exact H|]. rewrite offs_all. exact Hj.
      * intros Hcl. rewrite Hro by auto. rewrite Ht2; [now rewrite offs_S|]. destruct cl; [congruence|cbn; lia].
  - rewrite E. cbn [bind]. eexists. split; [reflexivity|]. split; [|split; reflexivity].
    split; [now apply with_buf_wf|]. apply view_from_cells; [reflexivity|reflexivity|].
    intros i j Hi Hj. cbn [with_buf d_buf d_sh]. apply G; auto. left. now rewrite offs_all.
Qed.
End Paint.

Lemma locate_offs l : forall k i, k < length l -> i < nth k l 0 -> locate l (offs l k + i) = (k, i).
Proof.
  induction l as [|n t IH]; intros k i HI Hi; [cbn in HI; lia|]. destruct k as [|k]; cbn [nth] in Hi.
  - cbn. destruct (Nat.ltb_spec i n); [reflexivity|lia].
  - unfold offs. cbn [firstn list_sum fold_right locate]. fold (list_sum (firstn k t)). fold (offs t k).
    destruct (Nat.ltb_spec (n + offs t k + i) n); [lia|]. replace (n + offs t k + i - n) with (offs t k + i) by lia.
    cbn in HI. rewrite IH by (auto; lia). reflexivity.
Qed.
Lemma locate_tiled {D} (zero : D) shade rl cl ty bw :
  tiled zero shade rl cl ty bw (fun i j => let '(bi, i') := locate rl i in let '(bj, j') := locate cl j in
     block_pixel zero shade bw (ty bi bj) i' j').
Proof. intros I J i j HI HJ Hi Hj. rewrite !locate_offs by auto. reflexivity. Qed.

Lemma rep_blocked_blocks {F D} (ar : arith F D) (b : blocked F D) rl cl g : rep_blocked ar b rl cl g ->
  d_orient (b_mat b) = ColMajor /\ exists f, blocks_are b (length rl) (length cl) f /\ forall I J, I < length rl -> J < length cl -> In (dyn_ty (f I J)) type_list /\ rep ar (f I J) (nth I rl 0) (nth J cl 0) (fun i j => g (offs rl I + i) (offs cl J + j)).
Proof.
  intros (_ & _ & O & f & M & B). split; auto.
  destruct (Nat.eq_dec (length rl * length cl) 0) as [HZ|NZ].
  - exists (fun _ _ => DL (LZ (mkZmat 0 0 0))). split; [|intros; nia]. unfold blocks_are.
    eapply is_mat_ext; [exact M|]. intros i j Hi Hj. nia.
  - assert (H : exists d0, f 0 0 = Some d0) by (destruct (B 0 0) as (x & Ex & _); [nia|nia|eauto]). destruct H as (d0 & _).
    exists (fun I J => match f I J with Some d => d | None => d0 end). split.
    + unfold blocks_are. eapply is_mat_ext; [exact M|]. intros i j Hi Hj. destruct (B i j Hi Hj) as (x & Ex & _). now rewrite Ex.
    + intros I J HI HJ. destruct (B I J HI HJ) as (x & Ex & Tx & Rx). rewrite Ex. auto.
Qed.

(** ** Matrix provider *)
Section Prov.
Context {D : Type} (dbg : bool) (zero : D) (read_file : string -> res (dense D)).

Lemma find_put (m : mset D) n l : ms_find (ms_put m n l) n = Some l.
Proof. unfold ms_find, ms_put. cbn. now rewrite String.eqb_refl. Qed.
Lemma find_put_ne (m : mset D) n n' l : n' <> n -> ms_find (ms_put m n l) n' = ms_find m n'.
Proof. intros H. unfold ms_find, ms_put. cbn. now destruct (String.eqb_spec n' n). Qed.

Definition have (m : mset D) (n : string) : list (dense D) := match ms_find m n with Some l => l | None => [] end.

Lemma push_loop {X} (f : X -> res (dense D)) (n : string) (l : list X) (ds : list (dense D)) : forall m,
  Forall2 (fun x d => f x = Ok d) l ds ->
  exists m', foldM (fun x m => do d <- f x; Ok (ms_push m n d)) l m = Ok m' /\
    have m' n = have m n ++ ds /\ forall k, k <> n -> ms_find m' k = ms_find m k.
Proof.
  intros m H. revert m. induction H as [|x d l ds E _ IH]; intros m.
  - exists m. split; [reflexivity|]. now rewrite app_nil_r.
  - cbn [foldM]. rewrite E. cbn [bind]. destruct (IH (ms_push m n d)) as (m' & E' & H1 & H2).
    exists m'. split; [exact E'|]. split.
    + rewrite H1. unfold ms_push at 1. unfold have at 1. rewrite find_put. fold (have m n). now rewrite <- app_assoc.
    + intros k Hk. rewrite H2 by auto. unfold ms_push. now rewrite find_put_ne.
Qed.
End Prov.
