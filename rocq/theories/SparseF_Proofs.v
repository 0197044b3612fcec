(** The continuous-number filler on sparse matrices. *)
From Coq Require Import Sorting.Sorted.
From Verif Require Import Base BaseLemmas Dense_Model Dense_Spec Dense_Proofs Dense2_Proofs Dense3_Proofs
  Sparse_Model Sparse_Spec Sparse_Proofs Sparse2_Proofs Sparse3_Proofs Mult2_Proofs.

Lemma s_continuous_spec {T} `{SC : Scalar T} r c nnz : nnz = 0 \/ r * c <= nnz ->
  exists s, s_continuous_filler (@s_new T ColMajor r c nnz) = Ok s /\ s_o s = ColMajor /\
    sp_mat s r c (fun i j => Some (cnt (j * r + i))).
Proof.
  intros Hn. set (N := if nnz =? 0 then r * c else nnz).
  assert (HN : r * c <= N) by (unfold N; destruct (Nat.eqb_spec nnz 0); lia).
  unfold s_continuous_filler, s_nlines. cbn [s_new s_val s_key s_off s_rows s_o s_cols s_full]. fold N.
  assert (Hal : forall X k, length (@alloc X k) = k) by (intros; unfold alloc; apply repeat_length).
  destruct (forM_inv (fun i '(v, vs) => do vs <- wr vs i v; Ok (sadd v s1, vs))
     (fun k '(v, vs) => v = cnt k /\ filled (fun i : nat => cnt i) (seq 0 k) vs N) N (s1, @alloc T N))
    as ([v vs] & E1 & -> & Fv).
  { split; [reflexivity|]. split; [apply Hal|]. eexists; reflexivity. }
  { intros k [v vs] Hk (-> & Fk). destruct (filled_push (fun i => cnt i) (seq 0 k) vs N k Fk) as (vs' & Ew & F'); [rewrite seq_length; lia|].
    rewrite seq_length in Ew. rewrite Ew. cbn [bind]. eexists; split; [reflexivity|]. split; [reflexivity|].
    rewrite seq_S. exact F'. }
  rewrite Hal. unfold forM in E1. rewrite E1. cbn [bind]. rewrite Hal. rewrite Nat.add_1_r. cbn [bind].
  set (LC := fun l => map (fun k => (k, @cnt T SC (l * r + k))) (seq 0 r)).
  assert (Hlen : forall l, length (LC l) = r) by (intros; unfold LC; now rewrite map_length, seq_length).
  assert (Hcat : forall k, length (concat (map LC (seq 0 k))) = k * r).
  { induction k as [|k IH]; [reflexivity|]. rewrite seq_S, map_app, concat_app, app_length, IH. cbn [map concat].
    rewrite app_nil_r, Hlen. cbn [Nat.add]. lia. }
  assert (Hsn : forall k, concat (map LC (seq 0 (S k))) = concat (map LC (seq 0 k)) ++ LC k).
  { intros k. rewrite seq_S, map_app, concat_app. cbn [map concat Nat.add]. now rewrite app_nil_r. }
  destruct (forM_inv (fun l '(ks, offs) =>
      do ks <- forM r (fun k ks => wr ks (l * r + k) k) ks;
      do offs <- wr offs l (l * r);
      Ok (ks, offs))
     (fun l '(ks, offs) => filled fst (concat (map LC (seq 0 l))) ks N /\ filled (fun l => l * r) (seq 0 l) offs (S c))
     c (@alloc nat N, @alloc nat (S c))) as ([ks offs] & E2 & Fk & Fo).
  { split; split; try apply Hal; eexists; reflexivity. }
  { intros l [ks offs] Hl (Fk & Fo).
    destruct (forM_inv (fun k ks => wr ks (l * r + k) k)
       (fun k ks => filled fst (concat (map LC (seq 0 l)) ++ map (fun k => (k, @cnt T SC (l * r + k))) (seq 0 k)) ks N) r ks)
      as (ks' & E3 & F3).
    { cbn [seq map]. now rewrite app_nil_r. }
    { intros k ks1 Hk F1. destruct (filled_push fst _ ks1 N (k, @cnt T SC (l * r + k)) F1) as (ks2 & Ew & F2).
      { rewrite app_length, Hcat, map_length, seq_length. nia. }
      rewrite app_length, Hcat, map_length, seq_length in Ew. cbn [fst] in Ew.
      exists ks2. split; [exact Ew|]. rewrite seq_S, map_app, app_assoc. exact F2. }
    rewrite E3. cbn [bind].
    destruct (filled_push (fun l => l * r) (seq 0 l) offs (S c) l Fo) as (offs' & Ew & F'); [rewrite seq_length; lia|].
    rewrite seq_length in Ew. rewrite Ew. cbn [bind]. eexists; split; [reflexivity|].
    split; [rewrite Hsn; exact F3|]. rewrite seq_S. exact F'. }
  replace (forM c _ _) with (Ok (ks, offs)) by (symmetry; exact E2). cbn [bind].
  destruct (filled_push (fun l => l * r) (seq 0 c) offs (S c) c Fo) as (offs' & Ew & Fo'); [rewrite seq_length; lia|].
  rewrite seq_length in Ew. rewrite Ew. cbn [bind snd].
  eexists; split; [reflexivity|]. split; [reflexivity|].
  apply sp_mat_lines. split; [reflexivity|]. split; [reflexivity|]. split; [reflexivity|].
  exists (map LC (seq 0 c)).
  assert (Hst : forall l, l <= c -> start (map LC (seq 0 c)) l = l * r).
  { intros l Hl. unfold start. rewrite firstn_map. replace (firstn l (seq 0 c)) with (seq 0 l); [apply Hcat|].
    replace c with (l + (c - l)) by lia. rewrite seq_app, firstn_app, seq_length, Nat.sub_diag, firstn_O, app_nil_r.
    rewrite firstn_all2; [reflexivity|rewrite seq_length; lia]. }
  split; [|split; [|split]].
  - apply repr_intro; simpl.
    + destruct Fo' as (HM & tl & ->). rewrite psum_start, map_length, seq_length, map_map.
      rewrite app_length, map_length, app_length, seq_length in HM. cbn [length] in HM.
      destruct tl; [|cbn [length] in HM; lia]. rewrite app_nil_r, <- seq_S. apply map_ext_in.
      intros l Hl. apply in_seq in Hl. rewrite Hst by lia. reflexivity.
    + destruct Fv as (-> & _). destruct Fk as (-> & _). reflexivity.
    + exists N. destruct Fv as (HL & tl & Ev). split; [exact HL|].
      exists (skipn (c * r) vs). rewrite <- (firstn_skipn (c * r) vs) at 1. f_equal.
      rewrite Ev. rewrite firstn_app, map_length, seq_length. replace (c * r - N) with 0 by lia. rewrite firstn_O, app_nil_r.
      rewrite firstn_map. replace (firstn (c * r) (seq 0 N)) with (seq 0 (c * r)).
      2:{ replace N with (c * r + (N - c * r)) by lia. rewrite seq_app, firstn_app, seq_length, Nat.sub_diag, firstn_O, app_nil_r.
          rewrite firstn_all2; [reflexivity|rewrite seq_length; lia]. }
      clear. unfold LC. induction c as [|c IH]; [reflexivity|].
      replace (S c * r) with (c * r + r) by lia.
      rewrite seq_app, map_app, IH, seq_S, !map_app, concat_app, map_app. f_equal. cbn [map concat Nat.add].
      rewrite app_nil_r, map_map. cbn [snd]. replace (seq (c * r) r) with (map (fun x => x + c * r) (seq 0 r)) by (rewrite seq_map_add; reflexivity). rewrite map_map. apply map_ext. intros x. f_equal. f_equal. lia.
    + exists N. exact Fk.
  - rewrite map_length, seq_length. reflexivity.
  - unfold s_major; simpl. apply Forall_forall. intros x Hx. apply in_map_iff in Hx as (l & <- & _).
    unfold LC. split; rewrite map_map; cbn [fst]; rewrite map_id.
    + clear. generalize 0. induction r as [|r IH]; intros s; cbn [seq]; constructor; auto.
      apply Forall_forall. intros y Hy. apply in_seq in Hy. lia.
    + apply Forall_forall. intros y Hy. apply in_seq in Hy. lia.
  - intros i j Hi Hj. cbn [s_rows s_cols] in Hi, Hj. unfold line_of, key_of. cbn [s_o].
    assert (Hn' : nth j (map LC (seq 0 c)) [] = LC j).
    { apply nth_error_nth. rewrite nth_error_map, nth_error_seq. destruct (Nat.ltb_spec j c); [reflexivity|lia]. }
    rewrite Hn'. symmetry. apply lk_In_iff.
    + unfold LC. rewrite map_map. cbn [fst]. rewrite map_id. apply seq_NoDup.
    + unfold LC. apply in_map_iff. exists i. split; auto. apply in_seq. lia.
Qed.
