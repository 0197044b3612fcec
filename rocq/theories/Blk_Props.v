(** * C63: blocked matrices written as a list of lists of blocks. *)
From Verif Require Import Base BaseLemmas Dense_Model Dense_Spec Dense_Proofs Dense2_Proofs Sparse_Model Sparse_Spec
  Mult_Model Mult_Spec Mult_Props Dyn_Model Dyn_Spec Dyn_Proofs Dyn2_Proofs Block_Proofs Dense_Props Sparse_Props Dyn_Props.
From Coq Require Import List. Import ListNotations.

(** A loop each of whose steps either goes on or throws for a reason [W]. *)
Lemma foldM_or {X S} (f : X -> S -> res S) (I : nat -> S -> Prop) (W : Prop) l s :
  I 0 s ->
  (forall k x s, nth_error l k = Some x -> I k s ->
     (exists s', f x s = Ok s' /\ I (Datatypes.S k) s') \/ (f x s = Throw /\ W)) ->
  (exists s', foldM f l s = Ok s' /\ I (length l) s') \/ (foldM f l s = Throw /\ W).
Proof.
  revert I s; induction l as [|x t IH]; intros I s H0 Hstep; simpl; eauto.
  destruct (Hstep 0 x s eq_refl H0) as [(s1 & E1 & H1)|[E1 HW]]; rewrite E1; simpl; [|auto].
  apply (IH (fun k => I (Datatypes.S k)) s1 H1).
  intros k y s2 Hk HI. apply (Hstep (Datatypes.S k) y s2 Hk HI).
Qed.

(** [values] is an [r] x [c] table, r, c >= 1, of pointers to objects of the listed
    types; the one in row I and column J, [v I J], has [h I J] rows and [w I J] columns. *)
Definition table {F D} (values : list (list (option (dyn F D)))) (r c : nat)
    (v : nat -> nat -> dyn F D) (h w : nat -> nat -> nat) : Prop :=
  1 <= r /\ 1 <= c /\ length values = r /\
  (forall I, I < r -> exists row, nth_error values I = Some row /\ length row = c /\
     forall J, J < c -> nth_error row J = Some (Some (v I J))) /\
  (forall I J, I < r -> J < c -> In (dyn_ty (v I J)) type_list /\
     dy_rows (v I J) = Ok (h I J) /\ dy_cols (v I J) = Ok (w I J)).

Section P.
Context {F D : Type}.

Lemma list_sum_map_S (f : nat -> nat) n : list_sum (map f (seq 0 (S n))) = list_sum (map f (seq 0 n)) + f n.
Proof. rewrite seq_S, map_app, list_sum_app. simpl. lia. Qed.

Lemma blk_init_spec exc dbg (values : list (list (option (dyn F D)))) r c v h w : table values r c v h w ->
  (exists b, blk_init_list exc dbg values = Ok b /\ (forall I J, I < r -> J < c -> h I J = h I 0) /\
     b_ubr b = list_sum (map (fun I => h I 0) (seq 0 r)) /\ b_ubc b = list_sum (map (w (r - 1)) (seq 0 c)) /\
     d_orient (b_mat b) = ColMajor /\ full_ok (b_mat b) /\ is_mat (b_mat b) r c (fun I J => Some (v I J))) \/
  (blk_init_list exc dbg values = Throw /\ exists I J, I < r /\ J < c /\ h I J <> h I 0).
Proof.
  intros (Hr & Hc & Hl & Hv & Ht). unfold blk_init_list.
  destruct values as [|first rest]; [simpl in Hl; lia|].
  assert (Hf : length first = c).
  { destruct (Hv 0 ltac:(lia)) as (row & E & L & _). simpl in E. now inversion E; subst. }
  set (values := first :: rest) in *. rewrite Hl, Hf. cbn zeta.
  set (b0 := blk_new r c 0 0). set (sh := d_sh (b_mat b0)). set (n := length (d_buf (b_mat b0))).
  assert (W0 : wf_mem (b_mat b0)).
  { unfold b0, wf_mem, d_rows, d_cols; cbn. repeat split. apply repeat_length. }
  assert (Hsh : sh_ok sh n) by (now apply wf_sh_ok).
  set (Q := fun I J (x : option (dyn F D)) => x = Some (v I J)).
  set (Wt := exists I J, I < r /\ J < c /\ h I J <> h I 0).
  unfold forM.
  match goal with |- context [foldM ?g (seq 0 r) b0] => set (outer := g) end.
  destruct (foldM_or outer (fun I b => exists buf, b = mkBlocked (with_buf (b_mat b0) buf)
       (list_sum (map (fun I => h I 0) (seq 0 I))) (match I with 0 => 0 | S I' => list_sum (map (w I') (seq 0 c)) end) /\
       wrote sh n Q buf I 0 /\ (forall I' J, I' < I -> J < c -> h I' J = h I' 0)) Wt (seq 0 r) b0)
    as [(b & E & buf & -> & HW & HH)|[E HW]].
  - exists (d_buf (b_mat b0)). split; [reflexivity|]. split; [now apply wrote_0|]. intros; lia.
  - intros I x b HI (buf & -> & HW & HH). rewrite nth_error_seq in HI.
    destruct (Nat.ltb_spec I r) as [HI'|]; [|discriminate]. simpl in HI. inversion HI; subst x. clear HI.
    match goal with |- (exists s', outer I ?b = _ /\ _) \/ _ => remember (outer I b) as R eqn:ER end. unfold outer in ER.
    destruct (Hv I HI') as (row & Er & Lr & Hj). rewrite Er in ER.
    destruct row as [|v0 row']; [simpl in Lr; lia|]. set (row := v0 :: row') in *.
    assert (Ev0 : v0 = Some (v I 0)). { specialize (Hj 0 ltac:(lia)). simpl in Hj. now inversion Hj. }
    destruct (Ht I 0 HI' ltac:(lia)) as (T0 & R0 & C0).
    rewrite Ev0 in ER. unfold dyn_rows at 1 in ER. rewrite exec_member_ok, R0 in ER by auto. cbn [bind b_mat b_ubr b_ubc] in ER.
    change (d_sh (with_buf (b_mat b0) buf)) with sh in ER.
    rewrite cur_rc in ER; [|exact HI'|apply Hsh]. cbn [bind] in ER. rewrite enum_map_seq, foldM_map in ER.
    change (sh_cols sh) with c in ER.
    match type of ER with context [foldM ?g (seq 0 c) ?s] => set (inner := g) in ER; set (s0' := s) in ER end.
    destruct (foldM_or inner (fun J st => exists b2, st = (with_buf (b_mat b0) b2, list_sum (map (w I) (seq 0 J))) /\
       wrote sh n Q b2 I J /\ (forall J', J' < J -> h I J' = h I 0)) Wt (seq 0 c) s0')
      as [(st & E & b2 & -> & HW2 & HH2)|[E HW2]].
    + exists buf. split; [reflexivity|]. split; [exact HW|]. intros; lia.
    + intros J x st HJ (b2 & -> & HW2 & HH2). rewrite nth_error_seq in HJ.
      destruct (Nat.ltb_spec J c) as [HJ'|]; [|discriminate]. simpl in HJ. inversion HJ; subst x. clear HJ.
      unfold inner. rewrite (Hj J HJ'). cbn [with_buf d_buf].
      rewrite wr_ok by (rewrite (proj1 HW2); apply Hsh; auto). cbn [bind].
      destruct (Ht I J HI' HJ') as (TJ & RJ & CJ). unfold dyn_rows, dyn_cols. rewrite !exec_member_ok, RJ, CJ by auto.
      cbn [bind]. destruct (Nat.eqb_spec (h I 0) (h I J)) as [Eh|Eh]; cbn [negb].
      * left. eexists. split; [reflexivity|]. eexists. rewrite list_sum_map_S. split; [reflexivity|].
        split; [apply wrote_step; auto; reflexivity|]. intros J' HJ2. destruct (Nat.eq_dec J' J) as [->|]; [auto|apply HH2; lia].
      * right. split; [reflexivity|]. exists I, J. auto.
    + left. rewrite E in ER. cbn [bind] in ER. subst R. eexists. split; [reflexivity|]. exists b2. rewrite list_sum_map_S, seq_length.
      split; [reflexivity|]. split.
      * apply wrote_row. rewrite seq_length in HW2. exact HW2.
      * rewrite seq_length in HH2. intros I' J HI2 HJ. destruct (Nat.eq_dec I' I) as [->|]; [now apply HH2|apply HH; auto; lia].
    + right. rewrite E in ER. auto.
  - left. rewrite seq_length in *. eexists. split; [exact E|]. split; [exact HH|]. cbn [b_ubr b_ubc b_mat].
    split; [reflexivity|]. split.
    { destruct r; [lia|]. simpl. now rewrite Nat.sub_0_r. }
    split; [reflexivity|]. split; [reflexivity|]. split.
    + apply with_buf_wf; [exact W0|exact (proj1 HW)].
    + apply view_from_cells; [reflexivity|reflexivity|].
      intros i j Hi Hj. cbn [with_buf d_buf d_sh].
      destruct (proj2 HW i j Hi Hj (or_introl Hi)) as (x & Ex & ->). exact Ex.
  - right. auto.
Qed.
End P.

(** C63.  A table of blocks whose heights agree along every row and whose widths
    agree along every column gives the blocked matrix with these blocks, and its
    dense form is the matrix put together from them; a table with two different
    heights in one row is rejected, in every build. *)
Theorem C63_block_list :
  forall (F D : Type) (ar : arith F D) exc dbg (values : list (list (option (dyn F D)))) rl cl g v,
    table values (length rl) (length cl) v (fun I _ => nth I rl 0) (fun _ J => nth J cl 0) ->
    (forall I J, I < length rl -> J < length cl ->
       rep ar (v I J) (nth I rl 0) (nth J cl 0) (fun i j => g (offs rl I + i) (offs cl J + j))) ->
    (forall x, addD ar x (d0 ar) = x) ->
    exists b d, blk_init_list exc dbg values = Ok b /\ rep_blocked ar b rl cl g /\
      dense_of_blocked ar exc dbg b = Ok d /\ is_mat d (list_sum rl) (list_sum cl) g.
Proof.
  intros F D ar exc dbg values rl cl g v HT HR H0.
  destruct (blk_init_spec exc dbg values _ _ _ _ _ HT) as [(b & E & _ & U1 & U2 & O & _ & M)|(_ & I & J & _ & _ & H)]; [|congruence].
  assert (S : forall l, list_sum (map (fun I => nth I l 0) (seq 0 (length l))) = list_sum l).
  { intros l. f_equal. apply nth_ext with 0 0; [now rewrite map_length, seq_length|].
    intros k Hk. rewrite map_length, seq_length in Hk.
    rewrite (nth_indep _ 0 (nth 0 l 0)) by (now rewrite map_length, seq_length).
    rewrite (map_nth (fun I => nth I l 0)), seq_nth by auto. reflexivity. }
  rewrite S in U1. rewrite (S cl) in U2.
  assert (RB : rep_blocked ar b rl cl g).
  { split; [exact U1|]. split; [exact U2|]. split; [exact O|]. eexists. split; [exact M|].
    intros I J HI HJ. exists (v I J). destruct HT as (_ & _ & _ & _ & HT). destruct (HT I J HI HJ) as (T & _). auto. }
  destruct (dense_of_blocked_spec ar exc dbg b rl cl g RB H0) as (d & Ed & Md & _). exists b, d. auto.
Qed.
Print Assumptions C63_block_list.

(** Four blocks of two kinds. *)
Definition demoT : list (list (option (dyn Z Z))) :=
  [[Some (DL (LDd demoC)); Some (DL (LZ (z_new 2 1)))]; [Some (DL (LZ (z_new 1 3))); Some (DL (LZ (z_new 1 1)))]].
Example C63_nonvacuous :
  exists v g, table demoT 2 2 v (fun I _ => nth I [2; 1] 0) (fun _ J => nth J [3; 1] 0) /\
    (forall I J, I < 2 -> J < 2 ->
       rep zar (v I J) (nth I [2; 1] 0) (nth J [3; 1] 0) (fun i j => g (offs [2; 1] I + i) (offs [3; 1] J + j))) /\
    g 1 1 = demoC_f 1 1 /\ g 2 3 = 0%Z.
Proof.
  exists (fun I J => match I, J with 0, 0 => DL (LDd demoC) | 0, _ => DL (LZ (z_new 2 1)) | _, 0 => DL (LZ (z_new 1 3)) | _, _ => DL (LZ (z_new 1 1)) end).
  exists (fun i j => if (i <? 2) && (j <? 3) then demoC_f i j else 0%Z).
  split; [|split; [|split; reflexivity]].
  - split; [lia|]. split; [lia|]. split; [reflexivity|]. split.
    + intros I HI. destruct I as [|[|I]]; [| |lia]; eexists; (split; [reflexivity|]); (split; [reflexivity|]);
        intros J HJ; (destruct J as [|[|J]]; [| |lia]); reflexivity.
    + intros I J HI HJ. destruct I as [|[|I]]; [| |lia]; (destruct J as [|[|J]]; [| |lia]); split; (try (vm_compute; tauto)); split; reflexivity.
  - intros I J HI HJ. destruct I as [|[|I]]; [| |lia]; (destruct J as [|[|J]]; [| |lia]).
    + cbn [rep rep_leaf]. split; [reflexivity|]. eapply is_mat_ext; [exact demoC_mat|]. intros i j Hi Hj. cbn in Hi, Hj. cbn [offs list_sum fold_right firstn plus].
      rewrite (proj2 (Nat.ltb_lt i 2)), (proj2 (Nat.ltb_lt j 3)) by lia. reflexivity.
    + cbn [rep rep_leaf]. split; [reflexivity|]. split; [reflexivity|]. intros i j Hi Hj. 
      destruct (Nat.ltb_spec (offs [2; 1] 0 + i) 2); destruct (Nat.ltb_spec (offs [3; 1] 1 + j) 3); cbn in *; try lia; reflexivity.
    + cbn [rep rep_leaf]. split; [reflexivity|]. split; [reflexivity|]. intros i j Hi Hj. cbn in *. reflexivity.
    + cbn [rep rep_leaf]. split; [reflexivity|]. split; [reflexivity|]. intros i j Hi Hj. cbn in *. reflexivity.
Qed.

Theorem C63_heights_checked :
  forall (F D : Type) exc dbg (values : list (list (option (dyn F D)))) r c v h w, table values r c v h w ->
    (exists I J, I < r /\ J < c /\ h I J <> h I 0) <-> blk_init_list exc dbg values = Throw.
Proof.
  intros F D exc dbg values r c v h w HT. destruct (blk_init_spec exc dbg values r c v h w HT) as [(b & E & H & _)|(E & H)].
  - split; [|rewrite E; discriminate]. intros (I & J & HI & HJ & N). exfalso. apply N, H; auto.
  - split; auto.
Qed.
Print Assumptions C63_heights_checked.

(** Widths are not checked: the object is built with the width of the last row. *)
Theorem C63_widths_refuted :
  let blk r c := Some (DL (LZ (z_new r c))) : option (dyn Z Z) in
  exists b, blk_init_list true true [[blk 1 1; blk 1 3]; [blk 1 1; blk 1 1]] = Ok b /\ b_ubc b = 2 /\
    dense_of_blocked zar true true b = UB OOBWrite.
Proof. eexists. split; [vm_compute; reflexivity|]. split; vm_compute; reflexivity. Qed.
(** A row shorter than the first and an empty list are read beyond their end. *)
Theorem C63_ragged_refuted :
  let blk r c := Some (DL (LZ (z_new r c))) : option (dyn Z Z) in
  blk_init_list true true [[blk 1 1; blk 1 3]; [blk 1 1]] = UB OOBRead /\
  blk_init_list true true ([] : list (list (option (dyn Z Z)))) = UB OOBRead /\
  blk_init_list true true [[] : list (option (dyn Z Z))] = UB OOBRead.
Proof. repeat split; vm_compute; reflexivity. Qed.
