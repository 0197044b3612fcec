(** Plus and minus of dense and sparse matrices. *)
From Verif Require Import Base BaseLemmas Dense_Model Dense_Spec Dense_Proofs Dense2_Proofs Sparse_Model Sparse_Spec Sparse_Proofs Sparse2_Proofs.
From Coq Require Import Sorting.Sorted Sorting.Permutation.

Section Merge.
Context {A B C : Type} (ca : A -> C) (ub : B -> C) (op : A -> B -> C).

Fixpoint mrg (x : list (nat * A)) : list (nat * B) -> list (nat * C) :=
  fix go (y : list (nat * B)) :=
  match x, y with
  | [], _ => map (fun e => (fst e, ub (snd e))) y
  | _, [] => map (fun e => (fst e, ca (snd e))) x
  | (ka, a) :: x', (kb, b) :: y' =>
      if ka <? kb then (ka, ca a) :: mrg x' y
      else if kb <? ka then (kb, ub b) :: go y'
      else (ka, op a b) :: mrg x' y'
  end.

Lemma mrg_nil y : mrg [] y = map (fun e => (fst e, ub (snd e))) y.
Proof. destruct y; reflexivity. Qed.
Lemma mrg_nil_r x : mrg x [] = map (fun e => (fst e, ca (snd e))) x.
Proof. destruct x as [|[k a] x]; reflexivity. Qed.
Lemma mrg_cons ka a x kb b y : mrg ((ka, a) :: x) ((kb, b) :: y) =
  if ka <? kb then (ka, ca a) :: mrg x ((kb, b) :: y)
  else if kb <? ka then (kb, ub b) :: mrg ((ka, a) :: x) y
  else (ka, op a b) :: mrg x y.
Proof. reflexivity. Qed.

Definition comb (a : option A) (b : option B) : option C :=
  match a, b with
  | Some a, Some b => Some (op a b)
  | Some a, None => Some (ca a)
  | None, Some b => Some (ub b)
  | None, None => None
  end.

Lemma lk_map {V W} (h : V -> W) k (x : list (nat * V)) :
  lk k (map (fun e => (fst e, h (snd e))) x) = option_map h (lk k x).
Proof.
  induction x as [|[k' v] t IH]; simpl; [reflexivity|]. rewrite !lk_cons, IH. now destruct (k' =? k).
Qed.

Lemma mrg_all (P : nat -> Prop) x y : Forall P (map fst x) -> Forall P (map fst y) -> Forall P (map fst (mrg x y)).
Proof.
  revert y; induction x as [|[ka a] x IHx]; intros y Hx Hy.
  - rewrite mrg_nil, map_map. simpl. exact Hy.
  - induction y as [|[kb b] y IHy].
    + rewrite mrg_nil_r, map_map. simpl. exact Hx.
    + rewrite mrg_cons. simpl in Hx, Hy. inversion Hx; subst. inversion Hy; subst.
      destruct (ka <? kb); [|destruct (kb <? ka)]; cbn [map fst]; constructor; auto.
Qed.

Lemma mrg_sorted x y : StronglySorted lt (map fst x) -> StronglySorted lt (map fst y) ->
  StronglySorted lt (map fst (mrg x y)).
Proof.
  revert y; induction x as [|[ka a] x IHx]; intros y Hx Hy.
  - rewrite mrg_nil, map_map. simpl. exact Hy.
  - induction y as [|[kb b] y IHy].
    + rewrite mrg_nil_r, map_map. simpl. exact Hx.
    + rewrite mrg_cons. pose proof Hx as Hx0. pose proof Hy as Hy0. simpl in Hx, Hy.
      inversion Hx as [|? ? HSx HFx]; subst. inversion Hy as [|? ? HSy HFy]; subst.
      destruct (Nat.ltb_spec ka kb); [|destruct (Nat.ltb_spec kb ka)]; cbn [map fst]; constructor; auto.
      * apply mrg_all; auto. simpl. constructor; auto. eapply Forall_impl; [|exact HFy]. simpl; lia.
      * apply mrg_all; auto. simpl. constructor; auto. eapply Forall_impl; [|exact HFx]. simpl; lia.
      * apply mrg_all; auto. assert (ka = kb) by lia; subst; auto.
Qed.

Lemma lk_lt {V} k (x : list (nat * V)) : Forall (fun k' => k < k') (map fst x) -> lk k x = None.
Proof.
  intros HF. apply lk_None. intros Hin. eapply Forall_forall in HF; [|exact Hin]. lia.
Qed.

Lemma mrg_lk k x y : StronglySorted lt (map fst x) -> StronglySorted lt (map fst y) ->
  lk k (mrg x y) = comb (lk k x) (lk k y).
Proof.
  revert y; induction x as [|[ka a] x IHx]; intros y Hx Hy.
  - rewrite mrg_nil, lk_map. simpl. destruct (lk k y); reflexivity.
  - induction y as [|[kb b] y IHy].
    + rewrite mrg_nil_r, lk_map. destruct (lk k ((ka, a) :: x)); reflexivity.
    + rewrite mrg_cons. pose proof Hx as Hx0. pose proof Hy as Hy0. simpl in Hx, Hy.
      inversion Hx as [|? ? HSx HFx]; subst. inversion Hy as [|? ? HSy HFy]; subst.
      destruct (Nat.ltb_spec ka kb); [|destruct (Nat.ltb_spec kb ka)].
      * rewrite lk_cons, IHx by auto. rewrite (lk_cons k ka).
        destruct (Nat.eqb_spec ka k) as [->|]; [|reflexivity].
        rewrite (lk_lt k ((kb, b) :: y)); [reflexivity|]. simpl. constructor; auto.
        eapply Forall_impl; [|exact HFy]. simpl; lia.
      * rewrite lk_cons, IHy by auto. rewrite (lk_cons k kb).
        destruct (Nat.eqb_spec kb k) as [->|]; [|reflexivity].
        rewrite (lk_lt k ((ka, a) :: x)); [reflexivity|]. simpl. constructor; auto.
        eapply Forall_impl; [|exact HFx]. simpl; lia.
      * assert (ka = kb) by lia; subst kb. rewrite !lk_cons, IHx by auto.
        destruct (ka =? k); reflexivity.
Qed.

Lemma mrg_length x y : length (mrg x y) <= length x + length y.
Proof.
  revert y; induction x as [|[ka a] x IHx]; intros y.
  - rewrite mrg_nil, map_length. simpl. lia.
  - induction y as [|[kb b] y IHy].
    + rewrite mrg_nil_r, map_length. simpl. lia.
    + rewrite mrg_cons. destruct (ka <? kb); [|destruct (kb <? ka)]; cbn [length] in *.
      * specialize (IHx ((kb, b) :: y)). cbn [length] in IHx. lia.
      * lia.
      * specialize (IHx y). lia.
Qed.

Context (a : sparse A) (b : sparse B) (LA : list (list (nat * A))) (LB : list (list (nat * B))).
Hypothesis HRa : repr a LA.
Hypothesis HRb : repr b LB.

Lemma merge_ok l la lb N : nth_error LA l = Some la -> nth_error LB l = Some lb ->
  forall fuel x y qa qb E vs ks,
  skipn qa la = x -> skipn qb lb = y -> qa <= length la -> qb <= length lb ->
  length x + length y < fuel ->
  filled snd E vs N -> filled fst E ks N -> length E + length (mrg x y) <= N ->
  exists vs' ks',
    merge ca ub op a b fuel (start LA l + qa) (start LA l + length la) (start LB l + qb) (start LB l + length lb)
          (vs, ks, length E)
    = Ok (vs', ks', length (E ++ mrg x y)) /\
    filled snd (E ++ mrg x y) vs' N /\ filled fst (E ++ mrg x y) ks' N.
Proof.
  intros Ea Eb. induction fuel as [|fuel IH]; intros x y qa qb E vs ks Hx Hy Hqa Hqb Hf Hv Hk HN; [lia|].
  assert (Sx : length x = length la - qa) by (subst x; apply skipn_length).
  assert (Sy : length y = length lb - qb) by (subst y; apply skipn_length).
  assert (Hsk : forall {V} (w : list V) q h t, skipn q w = h :: t -> nth_error w q = Some h /\ skipn (S q) w = t).
  { clear. intros V w. induction w as [|z w IH]; intros [|q] h t E; simpl in *; try discriminate.
    - inversion E; auto.
    - now apply IH. }
  assert (Hpush : forall k (v : C), length E < N -> exists vs1 ks1, wr vs (length E) v = Ok vs1 /\
             wr ks (length E) k = Ok ks1 /\ filled snd (E ++ [(k, v)]) vs1 N /\ filled fst (E ++ [(k, v)]) ks1 N).
  { intros k v HE. destruct (filled_push snd E vs N (k, v) Hv HE) as (vs1 & Ev & Hv1).
    destruct (filled_push fst E ks N (k, v) Hk HE) as (ks1 & Ek & Hk1). eauto 10. }
  assert (Happ : forall k (v : C) z, S (length E) = length (E ++ [(k, v)]) /\ (E ++ [(k, v)]) ++ z = E ++ (k, v) :: z).
  { intros. rewrite app_length, <- app_assoc. simpl. split; auto. lia. }
  cbn [merge].
  destruct x as [|[ka va] x']; destruct y as [|[kb vb] y'].
  - (* done *)
    simpl in Sx, Sy. replace (start LA l + qa =? start LA l + length la) with true
      by (symmetry; apply Nat.eqb_eq; lia).
    replace (start LB l + qb =? start LB l + length lb) with true by (symmetry; apply Nat.eqb_eq; lia).
    simpl. exists vs, ks. rewrite app_nil_r. auto.
  - simpl in Sx, Sy. replace (start LA l + qa =? start LA l + length la) with true
      by (symmetry; apply Nat.eqb_eq; lia).
    replace (start LB l + qb =? start LB l + length lb) with false by (symmetry; apply Nat.eqb_neq; lia).
    cbn [negb andb].
    destruct (Hsk _ lb qb _ _ Hy) as (Eq & Hy').
    rewrite (repr_key b LB HRb l lb qb kb vb Eb Eq), (repr_val b LB HRb l lb qb kb vb Eb Eq). cbn [bind].
    rewrite mrg_nil in *. cbn [map fst snd length] in *.
    destruct (Hpush kb (ub vb)) as (vs1 & ks1 & Ev & Ek & Hv1 & Hk1); [lia|].
    rewrite Ev. cbn [bind]. rewrite Ek. cbn [bind].
    destruct (Happ kb (ub vb) (map (fun e => (fst e, ub (snd e))) y')) as (H1 & H2). rewrite H1, <- H2.
    rewrite <- (mrg_nil y').
    replace (S (start LB l + qb)) with (start LB l + S qb) by lia.
    apply IH; auto; try (simpl; lia); try (rewrite mrg_nil, <- H1; simpl; lia).
  - simpl in Sx, Sy. replace (start LA l + qa =? start LA l + length la) with false
      by (symmetry; apply Nat.eqb_neq; lia).
    replace (start LB l + qb =? start LB l + length lb) with true by (symmetry; apply Nat.eqb_eq; lia).
    cbn [negb andb].
    destruct (Hsk _ la qa _ _ Hx) as (Eq & Hx').
    rewrite (repr_key a LA HRa l la qa ka va Ea Eq), (repr_val a LA HRa l la qa ka va Ea Eq). cbn [bind].
    rewrite mrg_nil_r in *. cbn [map fst snd length] in *.
    destruct (Hpush ka (ca va)) as (vs1 & ks1 & Ev & Ek & Hv1 & Hk1); [lia|].
    rewrite Ev. cbn [bind]. rewrite Ek. cbn [bind].
    destruct (Happ ka (ca va) (map (fun e => (fst e, ca (snd e))) x')) as (H1 & H2). rewrite H1, <- H2.
    rewrite <- (mrg_nil_r x').
    replace (S (start LA l + qa)) with (start LA l + S qa) by lia.
    apply IH; auto; try (simpl; lia); try (rewrite mrg_nil_r, <- H1; simpl; lia).
  - simpl in Sx, Sy. replace (start LA l + qa =? start LA l + length la) with false
      by (symmetry; apply Nat.eqb_neq; lia).
    replace (start LB l + qb =? start LB l + length lb) with false by (symmetry; apply Nat.eqb_neq; lia).
    cbn [negb andb].
    destruct (Hsk _ la qa _ _ Hx) as (Eqa & Hx').
    destruct (Hsk _ lb qb _ _ Hy) as (Eqb & Hy').
    rewrite (repr_key a LA HRa l la qa ka va Ea Eqa), (repr_val a LA HRa l la qa ka va Ea Eqa).
    rewrite (repr_key b LB HRb l lb qb kb vb Eb Eqb), (repr_val b LB HRb l lb qb kb vb Eb Eqb). cbn [bind].
    rewrite mrg_cons in *. cbn [length] in Hf.
    destruct (ka <? kb).
    + cbn [length] in HN. destruct (Hpush ka (ca va)) as (vs1 & ks1 & Ev & Ek & Hv1 & Hk1); [lia|].
      rewrite Ev. cbn [bind]. rewrite Ek. cbn [bind].
      destruct (Happ ka (ca va) (mrg x' ((kb, vb) :: y'))) as (H1 & H2). rewrite H1, <- H2.
      replace (S (start LA l + qa)) with (start LA l + S qa) by lia.
      apply IH; auto; try (simpl; lia); try (rewrite <- H1; lia).
    + destruct (kb <? ka).
      * cbn [length] in HN. destruct (Hpush kb (ub vb)) as (vs1 & ks1 & Ev & Ek & Hv1 & Hk1); [lia|].
        rewrite Ev. cbn [bind]. rewrite Ek. cbn [bind].
        destruct (Happ kb (ub vb) (mrg ((ka, va) :: x') y')) as (H1 & H2). rewrite H1, <- H2.
        replace (S (start LB l + qb)) with (start LB l + S qb) by lia.
        apply IH; auto; try (simpl; lia); try (rewrite <- H1; lia).
      * cbn [length] in HN. destruct (Hpush ka (op va vb)) as (vs1 & ks1 & Ev & Ek & Hv1 & Hk1); [lia|].
        rewrite Ev. cbn [bind]. rewrite Ek. cbn [bind].
        destruct (Happ ka (op va vb) (mrg x' y')) as (H1 & H2). rewrite H1, <- H2.
        replace (S (start LA l + qa)) with (start LA l + S qa) by lia.
        replace (S (start LB l + qb)) with (start LB l + S qb) by lia.
        apply IH; auto; try (simpl; lia); try (rewrite <- H1; lia).
Qed.
End Merge.

Lemma line_len {T} maj (l : list (nat * T)) : line_ok maj l -> length l <= maj.
Proof.
  intros (HS & HF). rewrite <- (map_length fst l), <- (seq_length maj 0).
  apply NoDup_incl_length; [now apply SSorted_NoDup|].
  intros k Hk. eapply Forall_forall in HF; [|exact Hk]. apply in_seq. lia.
Qed.

Lemma lines_len {T} maj (L : list (list (nat * T))) : lines_ok maj L -> length (concat L) <= length L * maj.
Proof.
  induction 1 as [|l t H _ IH]; simpl; [lia|]. rewrite app_length. apply line_len in H. lia.
Qed.

(** Sequential construction of a sparse matrix, line after line, with the offset
    written after each line (first offset 0 written before). *)
Lemma build_lines {C} (body : nat -> buf C * buf nat * buf nat * nat -> res (buf C * buf nat * buf nat * nat))
  (LC : nat -> list (nat * C)) maj n N M vs ks offs :
  (forall l, l < n -> line_ok maj (LC l)) -> n * maj <= N -> length vs = N -> length ks = N -> length offs = M -> n + 1 <= M ->
  (forall l E vs ks offs, l < n -> filled snd E vs N -> filled fst E ks N -> length E + length (LC l) <= N -> 
     exists vs' ks', body l (vs, ks, offs, length E) =
       (do offs <- wr offs (1 + l) (length (E ++ LC l)); Ok (vs', ks', offs, length (E ++ LC l))) /\
       filled snd (E ++ LC l) vs' N /\ filled fst (E ++ LC l) ks' N) ->
  exists vs' ks' offs' tl, (do offs <- wr offs 0 0; forM n body (vs, ks, offs, 0)) = Ok (vs', ks', offs', length (concat (map LC (seq 0 n)))) /\
    filled snd (concat (map LC (seq 0 n))) vs' N /\ filled fst (concat (map LC (seq 0 n))) ks' N /\
    offs' = map Some (psum 0 (map LC (seq 0 n))) ++ tl /\ length offs' = M.
Proof.
  intros Hok HN Hv Hk Ho HM Hbody.
  set (L := fun n => map LC (seq 0 n)).
  assert (HLS : forall n, L (S n) = L n ++ [LC n]).
  { intros m. unfold L. rewrite seq_S, map_app. reflexivity. }
  assert (HlenL : forall n, length (L n) = n) by (intros; unfold L; now rewrite map_length, seq_length).
  assert (Hlen : forall m, m <= n -> length (concat (L m)) <= m * maj).
  { intros m Hm. rewrite <- (HlenL m) at 2. apply lines_len. apply Forall_forall. intros x Hx.
    unfold L in Hx. apply in_map_iff in Hx as (l & <- & Hl). apply in_seq in Hl. apply Hok. lia. }
  assert (F0 : filled (fun x : nat => x) [] offs M) by (subst M; apply filled_nil).
  destruct (filled_push (fun x : nat => x) [] offs M 0 F0) as (offs0 & E0 & F1); [simpl; lia|].
  simpl in E0, F1. rewrite E0. cbn [bind].
  destruct (forM_inv body (fun m '(vs, ks, offs, p) =>
     filled snd (concat (L m)) vs N /\ filled fst (concat (L m)) ks N /\ p = length (concat (L m)) /\
     filled (fun x : nat => x) (psum 0 (L m)) offs M) n (vs, ks, offs0, 0)) as ([[[vs' ks'] offs'] p] & E & H1 & H2 & -> & H3).
  - repeat split; auto; try (eexists; reflexivity). apply F1. apply F1.
  - intros m [[[vs1 ks1] offs1] p] Hm (H1 & H2 & -> & H3).
    destruct (Hbody m (concat (L m)) vs1 ks1 offs1 Hm H1 H2) as (vs2 & ks2 & Eb & H1' & H2').
    { rewrite <- app_length, <- concat_snoc, <- HLS. pose proof (Hlen (S m) ltac:(lia)). nia. }
    rewrite Eb. clear Eb.
    destruct (filled_push (fun x : nat => x) _ offs1 M (length (concat (L m) ++ LC m)) H3) as (offs2 & E2 & H3').
    { rewrite psum_length, HlenL. lia. }
    rewrite psum_length, HlenL in E2. cbn [Nat.add]. rewrite E2. cbn [bind].
    eexists; split; [reflexivity|]. cbv beta iota.
    rewrite <- concat_snoc, <- HLS in *. repeat split; try apply H1'; try apply H2'; try apply H3'.
    destruct H3' as (_ & tl & ->). exists tl. rewrite HLS, psum_app, concat_snoc, app_length. reflexivity.
  - destruct H3 as (HM' & tl & Eo).
    exists vs', ks', offs', tl. split; [exact E|]. split; auto.
Qed.

Lemma s_binop_spec {A B C} (ca : A -> C) (ub : B -> C) (op : A -> B -> C) dbg (a : sparse A) (b : sparse B) r c fa fb :
  sp_mat a r c fa -> sp_mat b r c fb -> s_o a = ColMajor -> s_o b = ColMajor ->
  exists s, s_binop ca ub op dbg a b = Ok s /\ s_o s = ColMajor /\
    sp_mat s r c (fun i j => comb ca ub op (fa i j) (fb i j)).
Proof.
  intros Ha Hb Oa Ob.
  apply sp_mat_lines in Ha as (Hra & Hca & _ & LA & HRa & HLa & HOa & Hda).
  apply sp_mat_lines in Hb as (Hrb & Hcb & _ & LB & HRb & HLb & HOb & Hdb).
  assert (Ma : s_minor a = c) by (unfold s_minor; now rewrite Oa).
  assert (Mb : s_minor b = c) by (unfold s_minor; now rewrite Ob).
  assert (Ja : s_major a = r) by (unfold s_major; now rewrite Oa).
  assert (Jb : s_major b = r) by (unfold s_major; now rewrite Ob).
  unfold s_binop, cassert. rewrite Hra, Hrb, Hca, Hcb, !Nat.eqb_refl, !andb_false_r. cbn [bind].
  rewrite (repr_nlines a LA HRa), HLa, Ma.
  set (c0 := s_resize (s_default (s_o a)) r c 0).
  set (LC := fun l => mrg ca ub op (nth l LA []) (nth l LB [])).
  assert (HnthA : forall l, l < c -> nth_error LA l = Some (nth l LA [])).
  { intros l Hl. apply nth_error_nth'. lia. }
  assert (HnthB : forall l, l < c -> nth_error LB l = Some (nth l LB [])).
  { intros l Hl. apply nth_error_nth'. lia. }
  assert (HokA : forall l, l < c -> line_ok r (nth l LA [])).
  { intros l Hl. rewrite Ja in HOa. eapply Forall_forall in HOa; [exact HOa|]. eapply nth_error_In; eauto. }
  assert (HokB : forall l, l < c -> line_ok r (nth l LB [])).
  { intros l Hl. rewrite Jb in HOb. eapply Forall_forall in HOb; [exact HOb|]. eapply nth_error_In; eauto. }
  assert (Hlen0 : forall X (n : nat), length (@st_resize X [] n) = n).
  { intros X n. unfold st_resize. simpl. destruct n; simpl; auto. unfold alloc. now rewrite repeat_length. }
  assert (Hval : length (s_val c0) = r * c) by (unfold c0; simpl; apply Hlen0).
  assert (Hkey : length (s_key c0) = r * c) by (unfold c0; simpl; apply Hlen0).
  assert (Hoff : length (s_off c0) = c + 1) by (unfold c0; simpl; apply Hlen0).
  destruct (build_lines (fun l '(vs, ks, offs, p) =>
      do ia <- rd (s_off a) l;
      do ea <- rd (s_off a) (S l);
      do ib <- rd (s_off b) l;
      do eb <- rd (s_off b) (S l);
      do st <- merge ca ub op a b (S ((ea - ia) + (eb - ib))) ia ea ib eb (vs, ks, p);
      let '(vs, ks, p) := st in
      do offs <- wr offs (1 + l) p;
      Ok (vs, ks, offs, p)) LC r c (r * c) (c + 1) (s_val c0) (s_key c0) (s_off c0))
    as (vs & ks & offs & tl & E & Hv & Hk & Eo & Hlo); auto; try lia.
  - intros l Hl. destruct (HokA l Hl) as (S1 & F1). destruct (HokB l Hl) as (S2 & F2).
    split; [now apply mrg_sorted|now apply mrg_all].
  - intros l E vs ks offs Hl Hv Hk HN.
    rewrite (repr_off a LA HRa l), (repr_off a LA HRa (S l)) by lia.
    rewrite (repr_off b LB HRb l), (repr_off b LB HRb (S l)) by lia. cbn [bind].
    rewrite (start_S LA l _ (HnthA l Hl)), (start_S LB l _ (HnthB l Hl)).
    destruct (merge_ok ca ub op a b LA LB HRa HRb l _ _ (r * c) (HnthA l Hl) (HnthB l Hl)
      (S (start LA l + length (nth l LA []) - start LA l + (start LB l + length (nth l LB []) - start LB l)))
      (nth l LA []) (nth l LB []) 0 0 E vs ks) as (vs' & ks' & Em & Hv' & Hk'); auto; try lia.
    rewrite !Nat.add_0_r in Em. exists vs', ks'. rewrite Em. cbn [bind]. split; auto.
  - apply bind_ok in E as (offs0 & E0 & E). rewrite E0. cbn [bind].
    match goal with |- context[forM c ?g ?st] => change (forM c g st) with (forM c g (s_val c0, s_key c0, offs0, 0)); replace (forM c g (s_val c0, s_key c0, offs0, 0)) with (Ok (vs, ks, offs, length (concat (map LC (seq 0 c))))) by (symmetry; exact E) end.
    cbn [bind]. eexists; split; [reflexivity|]. split; [exact Oa|].
    apply sp_mat_lines. split; [reflexivity|]. split; [reflexivity|]. split; [reflexivity|].
    exists (map LC (seq 0 c)). split; [|split; [|split]].
    + apply repr_intro; simpl; eauto.
      * rewrite Eo in Hlo |- *. rewrite app_length, map_length, psum_length, map_length, seq_length in Hlo.
        destruct tl; [apply app_nil_r|simpl in Hlo; lia].
      * destruct Hv as (-> & _). destruct Hk as (-> & _). reflexivity.
    + rewrite map_length, seq_length. unfold s_minor; simpl. now rewrite Oa.
    + unfold s_major; simpl. rewrite Oa. apply Forall_forall. intros x Hx.
      apply in_map_iff in Hx as (l & <- & Hl). apply in_seq in Hl.
      destruct (HokA l) as (S1 & F1); [lia|]. destruct (HokB l) as (S2 & F2); [lia|].
      split; [now apply mrg_sorted|now apply mrg_all].
    + intros i j Hi Hj. cbn [s_rows s_cols c0 s_resize] in Hi, Hj. unfold line_of, key_of. simpl. rewrite Oa.
      assert (Hn : nth j (map LC (seq 0 c)) [] = LC j).
      { apply nth_error_nth. rewrite nth_error_map, nth_error_seq.
        destruct (Nat.ltb_spec j c); [reflexivity|lia]. }
      rewrite Hn. unfold LC. rewrite mrg_lk; [|apply HokA; auto|apply HokB; auto].
      rewrite Hda, Hdb by lia. unfold line_of, key_of. now rewrite Oa, Ob.
Qed.

(** ** dense op dense *)
Lemma seq_map_add n s k : map (fun x => x + k) (seq s n) = seq (s + k) n.
Proof. revert s; induction n as [|n IH]; intros s; simpl; auto. f_equal. apply IH. Qed.

Lemma d_binop_spec {A B C} (op : A -> B -> C) dbg (a : dense A) (b : dense B) r c fa fb :
  is_mat a r c fa -> is_mat b r c fb -> d_orient a = d_orient b ->
  exists d, d_binop op dbg (d_orient a) a b = Ok d /\ is_mat d r c (fun i j => op (fa i j) (fb i j)) /\
    d_orient d = d_orient a /\ full_ok d /\ d_own d = true.
Proof.
  intros [Wa Va] [Wb Vb] Ho.
  pose proof Va as (Ra & Ca & _). pose proof Vb as (Rb & Cb & _).
  unfold d_binop, cassert. rewrite Ra, Rb, Ca, Cb, !Nat.eqb_refl, !andb_false_r. cbn [bind].
  rewrite iter_addrs_ok by (now left). cbn [bind].
  set (c0 := fst (d_resize (@d_default C (d_orient a)) r c)).
  assert (Wc : wf_mem c0 /\ d_rows c0 = r /\ d_cols c0 = c /\ d_orient c0 = d_orient a /\ full_ok c0 /\ d_own c0 = true).
  { unfold c0, d_resize, d_default. simpl. rewrite andb_false_r. simpl.
    unfold wf_mem, full_ok, d_rows, d_cols, d_orient; simpl. repeat split; auto.
    unfold st_resize; simpl. destruct (r * c) eqn:E; simpl; auto. unfold alloc. now rewrite repeat_length. }
  destruct Wc as (Wc & Rc & Cc & Oc & Fc & Wn).
  (* enumerate in storage order *)
  assert (Een : enum (map (fun p => Z.of_nat (addr (d_sh a) (fst p) (snd p))) (order (d_orient a) (d_rows a) (d_cols a)))
    = map (fun p => (lin (d_orient a) r c (fst p) (snd p), Z.of_nat (addr (d_sh a) (fst p) (snd p)))) (order (d_orient a) r c)).
  { unfold enum. rewrite map_length.
    assert (HL : length (order (d_orient a) (d_rows a) (d_cols a)) = r * c).
    { rewrite Ra, Ca. rewrite <- (map_length (fun p => lin (d_orient a) r c (fst p) (snd p))), order_lin. apply seq_length. }
    rewrite HL, <- (order_lin (d_orient a)). rewrite Ra, Ca.
    generalize (order (d_orient a) r c) as l. induction l as [|p t IH]; simpl; auto. now rewrite IH. }
  rewrite Een, foldM_map.
  assert (HB : forall i j, i < r -> j < c -> rd (d_buf b) (sh_base (d_sh b) + lin (d_orient a) r c i j) = Ok (fb i j)).
  { intros i j Hi Hj. pose proof Wb as (_ & Bb & _). rewrite Bb. simpl.
    apply rd_ok. rewrite Ho, <- Rb, <- Cb, <- own_addr_lin by auto. apply (view_cell b r c fb); auto; lia. }
  assert (HA : forall i j, i < r -> j < c -> rdz (d_buf a) (Z.of_nat (addr (d_sh a) i j)) = Ok (fa i j)).
  { intros i j Hi Hj. rewrite rdz_nat. apply rd_ok. now apply (view_cell a r c fa). }
  destruct (fill_order c0 (fun i j => Some (op (fa i j) (fb i j))) (wf_sh_ok c0 Wc)) as (m & Em & Lm & Hin & _).
  rewrite Oc, Rc, Cc in Em.
  match goal with |- context[foldM ?g (order (d_orient a) r c) (d_buf c0)] =>
    assert (EF : foldM g (order (d_orient a) r c) (d_buf c0) = Ok m) end.
  {
    assert (G : foldM (fun p b0 => wrc b0 (addr (d_sh c0) (fst p) (snd p)) (Some (op (fa (fst p) (snd p)) (fb (fst p) (snd p)))))
                  (order (d_orient a) r c) (d_buf c0) = Ok m).
    { assert (G1 := foldM_with_buf (fun p b0 => wrc b0 (addr (d_sh c0) (fst p) (snd p)) (Some (op (fa (fst p) (snd p)) (fb (fst p) (snd p)))))
                  (order (d_orient a) r c) c0).
      assert (G2 : forall l (d : dense C), d_sh d = d_sh c0 ->
        foldM (fun p d => do b0 <- wrc (d_buf d) (addr (d_sh d) (fst p) (snd p)) (Some (op (fa (fst p) (snd p)) (fb (fst p) (snd p)))); Ok (with_buf d b0)) l d
        = foldM (fun p d => do b0 <- wrc (d_buf d) (addr (d_sh c0) (fst p) (snd p)) (Some (op (fa (fst p) (snd p)) (fb (fst p) (snd p)))); Ok (with_buf d b0)) l d).
      { induction l as [|p l IH]; intros d Hd; simpl; auto. rewrite Hd.
        destruct (wrc (d_buf d) _ _) as [b0| | | |]; simpl; auto. }
      rewrite (G2 _ c0 eq_refl) in Em. rewrite G1 in Em. 
      destruct (foldM _ _ (d_buf c0)) as [m'| | | |]; simpl in Em; try discriminate.
      inversion Em. reflexivity. }
    rewrite <- G. apply foldM_ext. intros [i j] s Hin'. apply in_order in Hin' as (Hi & Hj). cbn [fst snd].
    rewrite HA, HB by auto. cbn [bind]. unfold wrc, wr.
    rewrite (own_addr_lin c0) by auto. rewrite Oc, Rc, Cc. reflexivity. }
  rewrite EF. cbn [bind]. eexists; split; [reflexivity|]. split; [|auto].
  split; [now apply with_buf_wf|]. apply view_from_cells; auto. intros i j Hi Hj. simpl. apply Hin; lia.
Qed.
