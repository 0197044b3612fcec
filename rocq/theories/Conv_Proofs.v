(** Proofs about the converter. *)
From Verif Require Import Base BaseLemmas Dense_Model Dense_Spec Dense_Proofs Dense2_Proofs Sparse_Model Sparse_Spec
  Sparse_Proofs Sparse2_Proofs Sparse3_Proofs Sparse4_Proofs SparseT_Proofs SparseP_Proofs
  Mult_Model Mult_Spec Mult_Proofs Mult2_Proofs Mult3_Proofs Dyn_Model Dyn_Spec Dyn_Proofs Dyn2_Proofs Conv_Spec.

Section C.
Context {F D : Type} (ar : arith F D).
Context (m : dense D) (r c : nat) (f : nat -> nat -> D).
Hypothesis V : view m r c f.
Hypothesis SH : sh_ok (d_sh m) (length (d_buf m)).
Hypothesis IT : iterable m.
Hypothesis OM : d_orient m = ColMajor.
Hypothesis FU : full_ok m.

Lemma occupation_spec t : occupation ar (fun x => ltD ar t (absD ar x)) m = Ok (fraction_above ar t r c f).
Proof.
  unfold occupation. rewrite (d_count_spec _ m r c f V IT). cbn [bind].
  unfold fraction_above. pose proof V as (R & C & _). unfold full_ok in FU. rewrite FU, R, C. reflexivity.
Qed.

Lemma occ_thr_agree th t e : @zero_limits_agree D th -> occ_thr th t e = occ_set th t e.
Proof. intros H. destruct t as [[|?|?]|? ?]; cbn; auto. destruct e; auto. Qed.

Lemma is_convertible_spec th t : nonneg_thr ar th -> zero_limits_agree th -> is_convertible ar th m t = Ok (respects ar th r c f t).
Proof.
  intros (H1 & H2) ZA. unfold is_convertible, gt_new. rewrite H1, H2. cbn [bind]. rewrite occupation_spec. cbn [bind].
  rewrite !occ_thr_agree by auto.
  unfold respects. destruct (leD ar (fraction_above ar (sigD th) r c f) (occ_set th t ED)); cbn [negb andb]; [|reflexivity].
  rewrite occupation_spec. reflexivity.
Qed.

Lemma s_chk_spec {U} (cv : D -> U) chk :
  exists s, s_of_dense cv chk ColMajor m = Ok s /\ s_o s = ColMajor /\
    sp_mat s r c (fun i j => if chk (f i j) then Some (cv (f i j)) else None).
Proof.
  unfold s_of_dense. rewrite (d_count_spec _ m r c f V IT). cbn [bind].
  destruct (s_of_dense_spec cv chk ColMajor m r c f (count2 r c (fun i j => chk (f i j))) V SH OM (Nat.le_refl _)) as (s & E & O & _ & M).
  eauto.
Qed.

Lemma dense_chk_spec {U} (cv : D -> U) zero chk :
  exists d, dense_chk cv zero chk m = Ok d /\ d_orient d = ColMajor /\
    is_mat d r c (fun i j => if sh_sub (d_sh m) then (if chk (f i j) then cv (f i j) else zero) else cv (f i j)).
Proof.
  unfold dense_chk. destruct (sh_sub (d_sh m)) eqn:ES.
  - destruct (conv_window_spec cv zero chk m r c f V FU IT ES) as (d & E & M & O & _). eauto.
  - destruct IT as [W|(H & _)]; [|congruence].
    destruct (conv_same_spec cv m r c f (conj W V)) as (M & O & _). eexists. split; [reflexivity|]. split; [congruence|exact M].
Qed.

(** What one part becomes. *)
Definition part_as (t : lty) (p : bool) (x : D) : D :=
  match t with
  | TZ => d0 ar
  | TS EF => if p then toD ar (toF ar x) else d0 ar
  | TS ED => if p then x else d0 ar
  | TD EF => if sh_sub (d_sh m) then (if p then toD ar (toF ar x) else toD ar (f0 ar)) else toD ar (toF ar x)
  | TD ED => if sh_sub (d_sh m) then (if p then x else d0 ar) else x
  end.

Lemma leaf_chk_spec t chk : exists l, leaf_chk ar t chk m = Ok l /\ leaf_ty l = t /\
  rep_leaf ar l r c (fun i j => part_as t (chk (f i j)) (f i j)).
Proof.
  pose proof V as (R & C & _). destruct t as [|[|]|[|]]; cbn [leaf_chk].
  - rewrite R, C. eexists. split; [reflexivity|]. split; [reflexivity|]. repeat split; auto.
  - destruct (s_chk_spec (toF ar) chk) as (s & E & O & M). rewrite E. cbn [rmap bind].
    eexists. split; [reflexivity|]. split; [reflexivity|]. split; [exact O|]. eexists. split; [exact M|].
    intros i j Hi Hj. cbn [part_as]. now destruct (chk (f i j)).
  - destruct (s_chk_spec (fun x => x) chk) as (s & E & O & M). rewrite E. cbn [rmap bind].
    eexists. split; [reflexivity|]. split; [reflexivity|]. split; [exact O|]. eexists. split; [exact M|].
    intros i j Hi Hj. cbn [part_as]. now destruct (chk (f i j)).
  - destruct (dense_chk_spec (toF ar) (f0 ar) chk) as (d & E & O & M). rewrite E. cbn [rmap bind].
    eexists. split; [reflexivity|]. split; [reflexivity|]. split; [exact O|]. eexists. split; [exact M|].
    intros i j Hi Hj. cbn [part_as]. destruct (sh_sub (d_sh m)); [|reflexivity]. now destruct (chk (f i j)).
  - destruct (dense_chk_spec (fun x => x) (d0 ar) chk) as (d & E & O & M). rewrite E. cbn [rmap bind].
    eexists. split; [reflexivity|]. split; [reflexivity|]. split; [exact O|]. exact M.
Qed.

Lemma convert_to_spec exc dbg th t : valid_thr ar th ->
  exists d, convert_to ar exc dbg th m t = Ok d /\ dyn_ty d = t /\
    rep ar d r c (fun i j => stored_as ar th (sh_sub (d_sh m)) t (f i j)).
Proof.
  intros (H1 & H2 & H3 & H4). destruct t as [[|[|]|[|]]|t1 t2]; cbn [convert_to]; unfold gt_new, range_new; rewrite ?H1, ?H2, ?H3, ?H4; cbn [bind].
  - destruct (leaf_chk_spec TZ (fun _ => true)) as (l & E & T & R). rewrite E. eexists. split; [reflexivity|]. cbn. split; [now rewrite T|exact R].
  - destruct (leaf_chk_spec (TS EF) (medium ar th)) as (l & E & T & R). unfold medium in E. rewrite E. eexists. split; [reflexivity|]. cbn. split; [now rewrite T|exact R].
  - destruct (leaf_chk_spec (TS ED) (large ar th)) as (l & E & T & R). unfold large in E. rewrite E. eexists. split; [reflexivity|]. cbn. split; [now rewrite T|exact R].
  - destruct (leaf_chk_spec (TD EF) (fun x => ltD ar (d0 ar) (absD ar x))) as (l & E & T & R). rewrite E. eexists. split; [reflexivity|]. cbn. split; [now rewrite T|exact R].
  - destruct (leaf_chk_spec (TD ED) (fun x => ltD ar (d0 ar) (absD ar x))) as (l & E & T & R). rewrite E. eexists. split; [reflexivity|]. cbn. split; [now rewrite T|exact R].
  - destruct (leaf_chk_spec t1 (large ar th)) as (l & E & T & R). unfold large in E. rewrite E. cbn [bind].
    destruct (leaf_chk_spec t2 (medium ar th)) as (l' & E' & T' & R'). unfold medium in E'. rewrite E'. cbn [bind].
    unfold mm_new. destruct (rep_leaf_dims ar _ _ _ _ R) as [-> ->]. destruct (rep_leaf_dims ar _ _ _ _ R') as [-> ->].
    rewrite !Nat.eqb_refl. cbn [bind]. eexists. split; [reflexivity|]. split; [reflexivity|].
    cbn [rep]. split; [exact T|]. split; [exact T'|]. eexists; eexists. split; [exact R|]. split; [exact R'|].
    intros; reflexivity.
Qed.

Lemma convert_first_spec' exc dbg th l t : nonneg_thr ar th -> zero_limits_agree th -> first_of (respects ar th r c f) l t ->
  convert_first ar exc dbg th m l = convert_to ar exc dbg th m t.
Proof.
  intros HV ZA (pre & post & -> & Ht & Hpre). induction pre as [|u pre IH].
  - cbn [app]. destruct post as [|v post]; cbn [convert_first]; rewrite is_convertible_spec, Ht by auto; reflexivity.
  - cbn [app]. destruct (pre ++ t :: post) as [|v rest] eqn:E; [destruct pre; discriminate|].
    cbn [convert_first]. rewrite is_convertible_spec, (Hpre u) by (auto; now left). cbn [bind].
    change (convert_first ar exc dbg th m (v :: rest) = convert_to ar exc dbg th m t). apply IH.
    intros w Hw. apply Hpre. now right.
Qed.

Lemma convert_none_spec' exc dbg th l : nonneg_thr ar th -> zero_limits_agree th -> (forall u, In u l -> respects ar th r c f u = false) -> l <> [] ->
  convert_first ar exc dbg th m l =
    (do _ <- core_failure exc dbg; convert_to ar exc dbg th m (last l (TL TZ))).
Proof.
  intros HV ZA. induction l as [|u l IH]; [congruence|]. intros H _. destruct l as [|v l].
  - cbn [convert_first last]. rewrite is_convertible_spec, (H u) by (auto; now left). reflexivity.
  - cbn [convert_first]. rewrite is_convertible_spec, (H u) by (auto; now left). cbn [bind].
    etransitivity; [exact (IH (fun w Hw => H w (or_intror Hw)) ltac:(discriminate))|reflexivity].
Qed.

Lemma convert_first_spec exc dbg th l t : valid_thr ar th -> zero_limits_agree th -> first_of (respects ar th r c f) l t ->
  convert_first ar exc dbg th m l = convert_to ar exc dbg th m t.
Proof. intros (H1 & H2 & _). now apply convert_first_spec'. Qed.
Lemma convert_none_spec exc dbg th l : valid_thr ar th -> zero_limits_agree th -> (forall u, In u l -> respects ar th r c f u = false) -> l <> [] ->
  convert_first ar exc dbg th m l =
    (do _ <- core_failure exc dbg; convert_to ar exc dbg th m (last l (TL TZ))).
Proof. intros (H1 & H2 & _). now apply convert_none_spec'. Qed.

(** Equal or reversed thresholds: no range between them. *)
Lemma convert_to_reversed exc dbg th t : nonneg_thr ar th -> ltD ar (d0 ar) (d0 ar) = false -> leD ar (sigF th) (sigD th) = true ->
  if needs_range t then convert_to ar exc dbg th m t = Throw
  else exists d, convert_to ar exc dbg th m t = Ok d /\ dyn_ty d = t /\
    rep ar d r c (fun i j => stored_as ar th (sh_sub (d_sh m)) t (f i j)).
Proof.
  intros (H1 & H2) H4 H3. destruct t as [[|[|]|[|]]|t1 t2]; cbn [convert_to needs_range]; unfold gt_new, range_new; rewrite ?H1, ?H2, ?H3, ?H4; cbn [bind].
  - destruct (leaf_chk_spec TZ (fun _ => true)) as (l & E & T & R). rewrite E. eexists. split; [reflexivity|]. cbn. split; [now rewrite T|exact R].
  - reflexivity.
  - destruct (leaf_chk_spec (TS ED) (large ar th)) as (l & E & T & R). unfold large in E. rewrite E. eexists. split; [reflexivity|]. cbn. split; [now rewrite T|exact R].
  - destruct (leaf_chk_spec (TD EF) (fun x => ltD ar (d0 ar) (absD ar x))) as (l & E & T & R). rewrite E. eexists. split; [reflexivity|]. cbn. split; [now rewrite T|exact R].
  - destruct (leaf_chk_spec (TD ED) (fun x => ltD ar (d0 ar) (absD ar x))) as (l & E & T & R). rewrite E. eexists. split; [reflexivity|]. cbn. split; [now rewrite T|exact R].
  - destruct (leaf_chk_spec t1 (large ar th)) as (l & E & _). unfold large in E. now rewrite E.
Qed.

(** A negative threshold. *)
Lemma convert_negative_double exc dbg th l : ltD ar (sigD th) (d0 ar) = true -> l <> [] -> convert_first ar exc dbg th m l = Throw.
Proof.
  intros H NE. destruct l as [|t [|u l]]; [congruence| |]; cbn [convert_first]; unfold is_convertible, gt_new; now rewrite H.
Qed.
Lemma convert_negative_single exc dbg th l t : ltD ar (sigD th) (d0 ar) = false -> ltD ar (sigF th) (d0 ar) = true ->
  In t l -> leD ar (fraction_above ar (sigD th) r c f) (occ_thr th t ED) = true -> convert_first ar exc dbg th m l = Throw.
Proof.
  intros H1 H2. induction l as [|u l IH]; [contradiction|]. intros HI HL.
  assert (Q : is_convertible ar th m u = Throw \/ is_convertible ar th m u = Ok false /\ u <> t).
  { unfold is_convertible, gt_new. rewrite H1. cbn [bind]. rewrite occupation_spec. cbn [bind].
    destruct (leD ar (fraction_above ar (sigD th) r c f) (occ_thr th u ED)) eqn:E; cbn [negb].
    - left. now rewrite H2.
    - right. split; [reflexivity|]. intros ->. congruence. }
  destruct Q as [Q|[Q NE]].
  - destruct l; cbn [convert_first]; now rewrite Q.
  - destruct HI as [->|HI]; [congruence|]. destruct l as [|v l]; [contradiction|].
    cbn [convert_first]. rewrite Q. cbn [bind]. exact (IH HI HL).
Qed.

Lemma first_of_dec (p : mty -> bool) l : (exists t, first_of p l t) \/ (forall u, In u l -> p u = false).
Proof.
  induction l as [|u l IH]; [right; contradiction|]. destruct (p u) eqn:E.
  - left. exists u, [], l. split; [reflexivity|]. split; [exact E|]. contradiction.
  - destruct IH as [(t & pre & post & -> & Ht & H)|H].
    + left. exists t, (u :: pre), post. split; [reflexivity|]. split; [exact Ht|]. intros w [<-|Hw]; auto.
    + right. intros w [<-|Hw]; auto.
Qed.

End C.

Lemma count2_zero r c p : count2 r c p = 0 -> forall i j, i < r -> j < c -> p i j = false.
Proof.
  unfold count2. intros H i j Hi Hj. destruct (p i j) eqn:E; [|reflexivity]. exfalso.
  assert (HI : In (i, j) (filter (fun '(i, j) => p i j) (flat_map (fun i => map (fun j => (i, j)) (seq 0 c)) (seq 0 r)))).
  { apply filter_In. split; [|exact E]. apply in_flat_map. exists i. split; [apply in_seq; lia|].
    apply in_map_iff. exists j. split; [reflexivity|]. apply in_seq. lia. }
  apply length_zero_iff_nil in H. rewrite H in HI. contradiction.
Qed.

Lemma count2_le r c p : count2 r c p <= r * c.
Proof.
  unfold count2. transitivity (length (flat_map (fun i => map (fun j => (i, j)) (seq 0 c)) (seq 0 r))).
  - induction (flat_map _ _) as [|[i j] l IH]; cbn; [lia|]. destruct (p i j); cbn; lia.
  - rewrite <- (seq_length r 0) at 2. induction (seq 0 r) as [|i l IH]; cbn; [lia|].
    rewrite app_length, map_length, seq_length. lia.
Qed.
