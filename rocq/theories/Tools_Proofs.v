(** Proofs about Tools_Model.v. *)
From Coq Require Import String NArith Nnat ZifyBool.
From Verif Require Import Base BaseLemmas Dense_Model Dense_Spec Dense_Proofs Striped_Proofs Dense2_Proofs Sparse_Model Sparse_Spec Mult_Spec
  Dyn_Model Dyn_Spec Dyn_Proofs Dyn2_Proofs Block_Proofs Check_Model Check_Spec Norm_Model Norm_Spec Norm_Proofs IO_Proofs Tools_Model Tools_Spec.
#[local] Arguments Nat.ltb : simpl never.
#[local] Arguments Nat.leb : simpl never.
#[local] Arguments Nat.eqb : simpl never.

(** ** Association lists, name tables *)
Section Assoc.
Context {K V : Type} (eqb : K -> K -> bool).
Hypothesis eqb_eq : forall a b, eqb a b = true <-> a = b.

Lemma eqb_refl' a : eqb a a = true. Proof. now apply eqb_eq. Qed.
Lemma assoc_head k v (l : list (K * V)) : assoc eqb k ((k, v) :: l) = Some v.
Proof. cbn. now rewrite eqb_refl'. Qed.
Lemma assoc_skip k k' v (l : list (K * V)) : k <> k' -> assoc eqb k ((k', v) :: l) = assoc eqb k l.
Proof. intros H. cbn. destruct (eqb k k') eqn:E; auto. now apply eqb_eq in E. Qed.
Lemma assoc_none k (l : list (K * V)) : ~ In k (map fst l) -> assoc eqb k l = None.
Proof.
  induction l as [|[k' v] t IH]; intros H; auto. cbn in H. rewrite assoc_skip; [apply IH|]; intuition.
Qed.
Lemma assoc_in k v (l : list (K * V)) : NoDup (map fst l) -> In (k, v) l -> assoc eqb k l = Some v.
Proof.
  induction l as [|[k' v'] t IH]; intros N H; [easy|]. cbn in N. inversion N as [|? ? N1 N2]; subst.
  destruct H as [H|H]; [injection H as -> ->; apply assoc_head|]. rewrite assoc_skip; auto.
  intros ->. apply N1. apply in_map_iff. now exists (k', v).
Qed.
Lemma assoc_app k (l1 l2 : list (K * V)) :
  assoc eqb k (l1 ++ l2) = match assoc eqb k l1 with Some v => Some v | None => assoc eqb k l2 end.
Proof.
  induction l1 as [|[k' v'] t IH]; auto. cbn. destruct (eqb k k'); auto.
Qed.
End Assoc.

Section Enum.
Context {E : Type} (eqe : E -> E -> bool).
Hypothesis eqe_eq : forall a b, eqe a b = true <-> a = b.

Lemma ep_build_lists (l : list (string * E)) : forall p,
  ep_s2e (fold_left (fun p '(s, e) => ep_map p s e) l p) = rev l ++ ep_s2e p /\
  ep_e2s (fold_left (fun p '(s, e) => ep_map p s e) l p) = rev (map (fun q => (snd q, fst q)) l) ++ ep_e2s p.
Proof.
  induction l as [|[s e] t IH]; intros p; [now split|]. cbn [fold_left]. destruct (IH (ep_map p s e)) as [H1 H2].
  rewrite H1, H2. cbn [rev map fst snd ep_map ep_s2e ep_e2s]. now rewrite <- !app_assoc.
Qed.
Lemma ep_build_s2e (l : list (string * E)) : ep_s2e (ep_build l) = rev l.
Proof. unfold ep_build. rewrite (proj1 (ep_build_lists l _)). apply app_nil_r. Qed.
Lemma ep_build_e2s (l : list (string * E)) : ep_e2s (ep_build l) = rev (map (fun q => (snd q, fst q)) l).
Proof. unfold ep_build. rewrite (proj2 (ep_build_lists l _)). apply app_nil_r. Qed.

Lemma parse_in dbg (l : list (string * E)) s e : NoDup (map fst l) -> In (s, e) l -> ep_parse dbg (ep_build l) s = Ok e.
Proof.
  intros N H. unfold ep_parse. rewrite ep_build_s2e.
  rewrite (assoc_in String.eqb String.eqb_eq s e); auto.
  - rewrite map_rev. now apply NoDup_rev.
  - now apply -> in_rev.
Qed.
Lemma name_in dbg (l : list (string * E)) s e : NoDup (map snd l) -> In (s, e) l -> ep_name eqe dbg (ep_build l) e = Ok s.
Proof.
  intros N H. unfold ep_name. rewrite ep_build_e2s.
  rewrite (assoc_in eqe eqe_eq e s); auto.
  - rewrite map_rev, map_map. cbn. now apply NoDup_rev.
  - apply -> in_rev. apply in_map_iff. now exists (s, e).
Qed.
Lemma parse_out dbg (l : list (string * E)) s : ~ In s (map fst l) ->
  ep_parse dbg (ep_build l) s = if dbg then AssertFail else UB OOBRead.
Proof.
  intros H. unfold ep_parse. rewrite ep_build_s2e, (assoc_none String.eqb String.eqb_eq).
  - now destruct dbg.
  - now rewrite map_rev, <- in_rev.
Qed.
Lemma name_out dbg (l : list (string * E)) e : ~ In e (map snd l) ->
  ep_name eqe dbg (ep_build l) e = if dbg then AssertFail else UB OOBRead.
Proof.
  intros H. unfold ep_name. rewrite ep_build_e2s, (assoc_none eqe eqe_eq).
  - now destruct dbg.
  - rewrite map_rev, <- in_rev, map_map. exact H.
Qed.
Lemma parse_last dbg (l : list (string * E)) s e : ep_parse dbg (ep_build (l ++ [(s, e)])) s = Ok e.
Proof. unfold ep_parse. rewrite ep_build_s2e, rev_app_distr. cbn. now rewrite String.eqb_refl. Qed.
Lemma parse_inv dbg (l : list (string * E)) s e : ep_parse dbg (ep_build l) s = Ok e -> In (s, e) l.
Proof.
  unfold ep_parse. rewrite ep_build_s2e. intros H. apply in_rev.
  induction (rev l) as [|[k v] t IH]; [now destruct dbg|]. cbn in H. destruct (String.eqb_spec s k) as [->|].
  - injection H as ->. now left.
  - right. now apply IH.
Qed.
Lemma name_inv dbg (l : list (string * E)) s e : ep_name eqe dbg (ep_build l) e = Ok s -> In (s, e) l.
Proof.
  unfold ep_name. rewrite ep_build_e2s. intros H.
  cut (In (e, s) (map (fun q => (snd q, fst q)) l)).
  { intros X. apply in_map_iff in X as ([s' e'] & X & Y). now injection X as <- <-. }
  apply in_rev. induction (rev _) as [|[k v] t IH]; [now destruct dbg|]. cbn in H. destruct (eqe e k) eqn:X.
  - apply eqe_eq in X as ->. injection H as ->. now left.
  - right. now apply IH.
Qed.
End Enum.

(** ** Tracker *)
Lemma times_left_app id a b : times_left id (a ++ b) = times_left id a + times_left id b.
Proof. unfold times_left. now rewrite filter_app, app_length. Qed.
Lemma time_in_app id a b : time_in id (a ++ b) = (time_in id a + time_in id b)%Z.
Proof. unfold time_in. induction a as [|p t IH]; cbn; auto. rewrite IH. destruct (fst p =? id); lia. Qed.

Definition reg_ok (r : treg) : Prop := length (tr_time r) = tracker_size /\ length (tr_count r) = tracker_size.
(** [r'] is [r] plus the scopes in [d]. *)
Definition plus_scopes (r : treg) (d : list (nat * Z)) (r' : treg) : Prop :=
  reg_ok r' /\ forall id, id < tracker_size ->
    nth id (tr_count r') 0 = nth id (tr_count r) 0 + times_left id d /\
    nth id (tr_time r') 0%Z = (nth id (tr_time r) 0 + time_in id d)%Z.

Lemma nth_upd {A} (l : list A) i j v d : i < length l -> nth j (upd l i v) d = if j =? i then v else nth j l d.
Proof.
  intros H. destruct (Nat.eqb_spec j i) as [->|N].
  - apply nth_error_nth. now apply nth_error_upd_eq.
  - destruct (nth_error l j) as [x|] eqn:E.
    + rewrite (nth_error_nth _ _ d E). apply nth_error_nth. now rewrite nth_error_upd_ne by congruence.
    + apply nth_error_None in E. rewrite !nth_overflow; auto. now rewrite upd_length.
Qed.

Lemma treg_add_ok r id d : reg_ok r -> id < tracker_size ->
  exists r', treg_add id d r = Ok r' /\ plus_scopes r [(id, d)] r'.
Proof.
  intros [L1 L2] H. unfold treg_add. rewrite <- L1 in H. pose proof H as H2. rewrite L1, <- L2 in H2.
  rewrite (nth_error_nth' (tr_time r) 0%Z H), (nth_error_nth' (tr_count r) 0 H2).
  eexists; split; [reflexivity|]. split; [split; cbn; now rewrite upd_length|].
  intros k Hk. cbn [tr_count tr_time]. rewrite !nth_upd by auto. unfold times_left, time_in; cbn.
  rewrite (Nat.eqb_sym id k). destruct (Nat.eqb_spec k id) as [->|]; cbn; lia.
Qed.

Lemma nest_run ev d : nest ev d -> forall st r, reg_ok r ->
  exists r', foldM tstep ev (st, r) = Ok (st, r') /\ plus_scopes r d r'.
Proof.
  induction 1 as [|id t0 t1 ev1 d1 ev2 d2 Hid H1 IH1 H2 IH2]; intros st r R.
  - exists r. split; [reflexivity|]. split; auto. intros id Hid. cbn. lia.
  - cbn [foldM tstep bind]. rewrite foldM_app.
    destruct (IH1 ((id, t0) :: st) r R) as (r1 & E1 & R1 & P1). rewrite E1. cbn [bind foldM tstep].
    destruct (treg_add_ok r1 id (t1 - t0) R1 Hid) as (r2 & E2 & R2 & P2). rewrite E2. cbn [bind].
    destruct (IH2 st r2 R2) as (r3 & E3 & R3 & P3). rewrite E3. exists r3. split; [reflexivity|]. split; auto.
    intros k Hk. destruct (P1 k Hk) as [A1 B1], (P2 k Hk) as [A2 B2], (P3 k Hk) as [A3 B3].
    change ((id, (t1 - t0)%Z) :: d2) with ([(id, (t1 - t0)%Z)] ++ d2).
    rewrite !times_left_app, !time_in_app. lia.
Qed.

Lemma treg0_ok : reg_ok treg0. Proof. split; apply repeat_length. Qed.

Lemma tracker_distinct : all_distinct (combine tracker_names (seq 0 tracker_size)).
Proof.
  split.
  - assert (E : map fst (combine tracker_names (seq 0 tracker_size)) = tracker_names) by reflexivity. rewrite E. 
    apply (NoDup_nth _ EmptyString). intros i j Hi Hj.
    assert (G : forallb (fun i => forallb (fun j => implb (String.eqb (nth i tracker_names EmptyString) (nth j tracker_names EmptyString)) (i =? j))
       (seq 0 25)) (seq 0 25) = true) by (vm_compute; reflexivity).
    rewrite forallb_forall in G. intros X. specialize (G i). rewrite forallb_forall in G.
    assert (A : In i (seq 0 25)) by (apply in_seq; cbn in Hi; lia).
    assert (B : In j (seq 0 25)) by (apply in_seq; cbn in Hj; lia).
    specialize (G A j B). rewrite X, String.eqb_refl in G. cbn in G. now apply Nat.eqb_eq.
  - change (map snd (combine tracker_names (seq 0 tracker_size))) with (seq 0 25). apply seq_NoDup.
Qed.

Lemma tracker_map_eq : tracker_map = combine tracker_names (seq 0 tracker_size).
Proof. vm_compute. reflexivity. Qed.

Lemma tracker_name_ok dbg id : id < tracker_size ->
  ep_name Nat.eqb dbg tracker_parser id = Ok (nth id tracker_names EmptyString).
Proof.
  intros H. unfold tracker_size in H. do 25 (destruct id as [|id]; [vm_compute; reflexivity|]). lia.
Qed.

Lemma treg_print_ok dbg r : reg_ok r ->
  treg_print dbg r = Ok (map (fun i => (nth i tracker_names EmptyString, nth i (tr_count r) 0, nth i (tr_time r) 0%Z))
    (filter (fun i => negb (nth i (tr_count r) 0 =? 0)) (seq 0 tracker_size))).
Proof.
  intros [L1 L2]. unfold treg_print.
  destruct (forM_inv (fun i out =>
    match nth_error (tr_count r) i, nth_error (tr_time r) i with
    | Some c, Some t =>
        if c =? 0 then Ok out else do n <- ep_name Nat.eqb dbg tracker_parser i; Ok (out ++ [(n, c, t)])
    | _, _ => UB OOBRead
    end) (fun k out => out = map (fun i => (nth i tracker_names EmptyString, nth i (tr_count r) 0, nth i (tr_time r) 0%Z))
    (filter (fun i => negb (nth i (tr_count r) 0 =? 0)) (seq 0 k))) tracker_size []) as (out & E & ->); [reflexivity| |exact E].
  intros k out Hk ->. rewrite (nth_error_nth' (tr_time r) 0%Z) by lia. rewrite (nth_error_nth' (tr_count r) 0) by lia.
  rewrite seq_S, filter_app, map_app. cbn [filter plus].
  destruct (Nat.eqb_spec (nth k (tr_count r) 0) 0) as [Z0|Z0]; cbn [negb map].
  - eexists; split; [reflexivity|]. now rewrite app_nil_r.
  - rewrite tracker_name_ok by auto. cbn [bind]. eexists; split; [reflexivity|]. reflexivity.
Qed.

(** ** Band matrices *)
Lemma wsub_le a b : b <= a -> wsub a b = a - b.
Proof. intros H. unfold wsub. now destruct (Nat.leb_spec b a); [|lia]. Qed.
Lemma wsub_wrap a : exists n, wsub a (S a) = S n.
Proof.
  unfold wsub. destruct (Nat.leb_spec (S a) a); [lia|]. replace (S a - a) with 1 by lia.
  exists (N.to_nat (2 ^ 64 - 2)). rewrite <- N2Nat.inj_succ. reflexivity.
Qed.

Definition bandr {D} (zero v : D) (rows bw i j : nat) : D := if j <? rows then band zero v bw i j else zero.

Section Band.
Context {D : Type} (dbg : bool).

Definition band_part (v : D) (f : nat -> nat -> D) (rows b k : nat) : nat -> nat -> D :=
  fun i j => if (((i - j =? b) && (j <=? i) && (j <? k)) || ((j - i =? b) && (i <=? j) && (i <? k))) then v else f i j.

Lemma band_inner v rows cols b (d : dense D) f : rows <= cols -> b <= rows -> is_mat d rows cols f ->
  exists d', forM (rows - b) (fun i d => do d <- dset dbg d (i + b) i v; dset dbg d i (i + b) v) d = Ok d' /\
    is_mat d' rows cols (band_part v f rows b (rows - b)) /\ d_orient d' = d_orient d /\ d_full d' = d_full d /\ d_own d' = d_own d.
Proof.
  intros Hc Hb M.
  apply (forM_inv _ (fun k d' => is_mat d' rows cols (band_part v f rows b k) /\ d_orient d' = d_orient d /\ d_full d' = d_full d /\ d_own d' = d_own d)).
  - split; auto. eapply is_mat_ext; [exact M|]. intros i j Hi Hj. unfold band_part.
    destruct (Nat.ltb_spec j 0); [lia|]. destruct (Nat.ltb_spec i 0); [lia|]. now rewrite !andb_false_r.
  - intros k d' Hk (M' & O' & F' & W').
    destruct (is_mat_dset dbg d' rows cols _ (k + b) k v M') as (d1 & E1 & M1 & O1 & F1 & W1); [lia|lia|].
    destruct (is_mat_dset dbg d1 rows cols _ k (k + b) v M1) as (d2 & E2 & M2 & O2 & F2 & W2); [lia|lia|].
    rewrite E1. cbn [bind]. exists d2. split; [exact E2|]. split; [|intuition congruence].
    eapply is_mat_ext; [exact M2|]. intros i j Hi Hj. unfold upd2, band_part.
    repeat match goal with |- context [if ?c then _ else _] => destruct c eqn:? end; try reflexivity; lia.
Qed.

Lemma band_fill_ok (zero v : D) rows cols bw (d : dense D) : rows <= cols -> bw <= rows + 1 ->
  is_mat d rows cols (fun _ _ => zero) ->
  exists d', band_fill dbg rows bw v d = Ok d' /\ is_mat d' rows cols (bandr zero v rows bw) /\
    d_orient d' = d_orient d /\ d_full d' = d_full d /\ d_own d' = d_own d.
Proof.
  intros Hc Hb M.
  apply (forM_inv _ (fun k d' => is_mat d' rows cols (bandr zero v rows k) /\ d_orient d' = d_orient d /\ d_full d' = d_full d /\ d_own d' = d_own d)).
  - split; auto. eapply is_mat_ext; [exact M|]. intros i j Hi Hj. unfold bandr, band.
    destruct (j <? rows); auto. 
  - intros k d' Hk (M' & O' & F' & W'). rewrite wsub_le by lia.
    destruct (band_inner v rows cols k d' _ Hc ltac:(lia) M') as (d2 & E2 & M2 & O2 & F2 & W2).
    exists d2. split; [exact E2|]. split; [|intuition congruence].
    eapply is_mat_ext; [exact M2|]. intros i j Hi Hj. unfold band_part, bandr, band, distance.
    repeat match goal with |- context [if ?c then _ else _] => destruct c eqn:? end; try reflexivity; lia.
Qed.

Lemma band_matrix_ok (zero v : D) rows cols bw : rows <= cols -> bw <= rows + 1 ->
  exists d, band_matrix dbg zero rows cols bw v = Ok d /\ is_mat d rows cols (bandr zero v rows bw) /\
    d_orient d = ColMajor /\ full_ok d /\ d_own d = true.
Proof.
  intros Hc Hb. unfold band_matrix.
  destruct (all_filler_mat zero (d_new ColMajor rows cols) (d_new_wf _ _ _)) as (d0 & E0 & M0 & O0 & F0 & W0).
  rewrite E0. cbn [bind].
  destruct (band_fill_ok zero v rows cols bw d0 Hc Hb M0) as (d & E & M & O & F & W).
  exists d. split; [exact E|]. split; [exact M|]. split; [now rewrite O, O0|]. split; [|now rewrite W, W0].
  unfold full_ok, d_getSize. rewrite F, F0. destruct M as [_ (-> & -> & _)]. reflexivity.
Qed.
End Band.

(** A band wider than the matrix plus one: the first step of the loop for
    [b = rows + 1] is already wrong. *)
Lemma foldM_app_fail {X S} (f : X -> S -> res S) l1 l2 s s1 e : foldM f l1 s = Ok s1 -> foldM f l2 s1 = e -> foldM f (l1 ++ l2) s = e.
Proof. intros E1 E2. rewrite foldM_app, E1. exact E2. Qed.

Lemma band_too_wide {D} dbg (zero v : D) n bw : 1 <= n -> n + 1 < bw ->
  band_matrix dbg zero n n bw v = if dbg then AssertFail else UB OOBWrite.
Proof.
  intros Hn Hb. unfold band_matrix.
  destruct (all_filler_mat zero (d_new ColMajor n n) (d_new_wf _ _ _)) as (d0 & E0 & M0 & O0 & _).
  rewrite E0. cbn [bind].
  destruct (band_fill_ok dbg zero v n n (n + 1) d0 (Nat.le_refl n) (Nat.le_refl _) M0) as (d & E & M & O & F & W).
  rewrite O0 in O. clear O0 E0 M0. change (d_orient (d_new ColMajor n n)) with ColMajor in O.
  unfold band_fill, forM in *. replace bw with ((n + 1) + S (bw - n - 2)) by lia.
  rewrite seq_app. eapply foldM_app_fail; [exact E|]. clear E.
  replace (0 + (n + 1)) with (S n) by lia. cbn [seq foldM]. destruct (wsub_wrap n) as (w & ->).
  cbn [seq foldM]. replace (0 + S n) with (S n) by lia.
  pose proof M as [(Hs & Hb0 & Hl) (Hr & Hc & _)].
  unfold dset. destruct dbg.
  - rewrite position_assert; [reflexivity|]. unfold d_rows in Hr. lia.
  - unfold position at 1. cbn [cassert andb bind]. unfold d_orient in O. rewrite O.
    unfold d_rows, d_cols in *. rewrite Hb0.
    unfold wr at 1. destruct (_ <? length (d_buf d)); [|reflexivity].
    cbn [bind]. unfold position at 1. cbn [cassert andb bind with_buf d_sh d_buf].
    assert (G : getLdRows (d_sh d) = n) by (unfold getLdRows; now rewrite Hs).
    rewrite O, Hb0, G. cbn [bind].
    unfold wr at 1. rewrite upd_length, Hl, Hr, Hc.
    destruct (Nat.ltb_spec (0 + (0 + S n * n)) (n * n)); [nia|]. reflexivity.
Qed.
