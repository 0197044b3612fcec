(** C75: storages of compile-time size inside the object (Storage.h 17-120,
    SparseStorage.h 9-81).  Specification: Stk_Spec.v. *)
From Verif Require Import Base BaseLemmas Dense_Model Stk_Model Stk_Spec.

Section P.
Context {T : Type} (zero : T) (N : nat).

Definition holds (m : list (buf T)) (v : list (list T)) : Prop :=
  m = map (map Some) v /\ (forall l, In l v -> length l = N).

Lemma copy_ok (src : list T) dst : length src = N -> length dst = N ->
  stk_copy N (map Some src) dst = Ok (map Some src).
Proof.
  intros LS LD. unfold stk_copy.
  assert (H : forall k, k <= N -> foldM (fun i d => do c <- rdc (map Some src) i; wrc d i c) (seq 0 k) dst
                = Ok (map Some (firstn k src) ++ skipn k dst)).
  { induction k as [|k IH]; intros LK; [reflexivity|].
    rewrite seq_S, foldM_app, IH by lia. cbn [bind foldM plus]. unfold rdc. rewrite nth_error_map.
    destruct (nth_error src k) as [v|] eqn:Hv; [|apply nth_error_None in Hv; lia]. cbn [option_map bind].
    unfold wrc. rewrite app_length, map_length, firstn_length, skipn_length.
    destruct (Nat.ltb_spec k (min k (length src) + (length dst - k))); [|lia]. cbn [bind]. f_equal.
    apply nth_error_ext. intros t. rewrite nth_error_upd, app_length, map_length, firstn_length, skipn_length.
    destruct (Nat.eqb_spec k t) as [<-|NE]; cbn [andb].
    - destruct (Nat.ltb_spec k (min k (length src) + (length dst - k))); [|lia].
      rewrite nth_error_app1 by (rewrite map_length, firstn_length; lia). rewrite nth_error_map.
      rewrite <- (firstn_skipn (S k) src) in Hv. rewrite nth_error_app1 in Hv by (rewrite firstn_length; lia). now rewrite Hv.
    - assert (FN : forall q, t < q -> q <= N -> nth_error (firstn q src) t = nth_error src t).
      { intros q Q1 Q2. rewrite <- (firstn_skipn q src) at 2. rewrite nth_error_app1; auto. rewrite firstn_length. lia. }
      destruct (lt_dec t k).
      + rewrite !nth_error_app1 by (rewrite map_length, firstn_length; lia).
        rewrite !nth_error_map, !FN by lia. reflexivity.
      + rewrite !nth_error_app2 by (rewrite map_length, firstn_length; lia). rewrite !map_length, !firstn_length.
        replace (min k (length src)) with k by lia. replace (min (S k) (length src)) with (S k) by lia.
        assert (SK : forall q r, nth_error (skipn q dst) r = nth_error dst (q + r)).
        { clear. intros q. revert dst. induction q; intros [|c dst] r; cbn; auto. now destruct r. }
        rewrite !SK. f_equal. lia. }
  rewrite H by lia. rewrite <- LS at 1. rewrite firstn_all, <- LD, skipn_all, app_nil_r. reflexivity.
Qed.

Lemma list_ok (vs : list T) : length vs <= N ->
  stk_list zero N vs = Ok (map Some (vs ++ repeat zero (N - length vs))).
Proof.
  intros L. unfold stk_list, enum, stk_new.
  assert (H : forall (us : list T) k (d : buf T), k + length us <= length d ->
            foldM (fun '(i, v) d => wr d i v) (combine (seq k (length us)) us) d
            = Ok (firstn k d ++ map Some us ++ skipn (k + length us) d)).
  { induction us as [|u us IH]; intros k d LE; cbn [length seq combine foldM].
    - cbn. rewrite Nat.add_0_r, firstn_skipn. reflexivity.
    - cbn [length] in LE. rewrite wr_ok by lia. cbn [bind]. rewrite IH by (rewrite upd_length; lia). f_equal.
      assert (U : upd d k (Some u) = firstn k d ++ Some u :: skipn (S k) d).
      { clear - LE. revert d LE. induction k; intros [|c d] LE; cbn in *; try lia; auto. f_equal. apply IHk. lia. }
      rewrite U.
      assert (LF : length (firstn k d) = k) by (rewrite firstn_length; lia).
      rewrite firstn_app, LF. replace (S k - k) with 1 by lia. rewrite (firstn_all2 (n := S k)) by lia.
      cbn [firstn map]. rewrite <- !app_assoc. cbn [app]. f_equal. f_equal. f_equal.
      rewrite skipn_app, LF, skipn_all2 by lia. cbn [app].
      replace (S k + length us - k) with (S (length us)) by lia. cbn [skipn].
      replace (k + S (length us)) with (S k + length us) by lia.
      assert (SS : forall p q (e : buf T), skipn p (skipn q e) = skipn (q + p) e).
      { clear. intros p q. induction q; intros e; [reflexivity|]. destruct e; cbn; [now rewrite skipn_nil|apply IHq]. }
      exact (SS (length us) (S k) d). }
  rewrite H by (rewrite repeat_length; lia). cbn [firstn app]. f_equal. rewrite map_app. f_equal.
  cbn [plus]. replace N with (length vs + (N - length vs)) at 1 by lia. rewrite repeat_app, skipn_app, repeat_length.
  rewrite skipn_all2 by (rewrite repeat_length; lia). rewrite Nat.sub_diag. cbn [app skipn].
  clear. generalize (N - length vs) as n. induction n; cbn; congruence.
Qed.

Lemma map_upd_some (l : list T) i v : map Some (upd l i v) = upd (map Some l) i (Some v).
Proof. revert i. induction l; intros [|i]; cbn; f_equal; auto. Qed.
Lemma map_upd_map (m : list (list T)) i v : map (map (@Some T)) (upd m i v) = upd (map (map Some) m) i (map Some v).
Proof. revert i. induction m; intros [|i]; cbn; f_equal; auto. Qed.
Lemma new_some : stk_new zero N = map Some (repeat zero N).
Proof. unfold stk_new. clear. generalize N as n. induction n; cbn; congruence. Qed.
Lemma in_upd (m : list (list T)) i v l : In l (upd m i v) -> l = v \/ In l m.
Proof. revert i. induction m; intros [|i]; cbn; auto; intros [<-|H]; auto. apply IHm in H. tauto. Qed.

Lemma step_sim sparse m v x v1 z : holds m v -> (sparse = true -> no_assign x) -> kspec zero N v x = Some (v1, z) ->
  exists m1, kstep zero N sparse m x = Ok (m1, z) /\ holds m1 v1.
Proof.
  intros [-> L] NA E.
  assert (G : forall s l, nth_error v s = Some l -> stk_get (map (map Some) v) s = Ok (map Some l) /\ length l = N).
  { intros s l H. unfold stk_get. rewrite nth_error_map, H. split; [reflexivity|]. apply L. eauto using nth_error_In. }
  assert (A : forall l, length l = N -> holds (map (map Some) v ++ [map Some l]) (v ++ [l])).
  { intros l H. split; [now rewrite map_app|]. intros q Hq. apply in_app_iff in Hq. destruct Hq as [Hq|[<-|[]]]; auto. }
  assert (P : forall s l, length l = N -> holds (upd (map (map Some) v) s (map Some l)) (upd v s l)).
  { intros s l H. split; [now rewrite map_upd_map|]. intros q Hq. apply in_upd in Hq. destruct Hq as [->|Hq]; auto. }
  destruct x as [n|vs|s|d s|s i w|s i|s|a b]; cbn [kspec kstep] in *.
  - injection E as <- <-. eexists; split; [reflexivity|]. rewrite new_some. apply A. apply repeat_length.
  - destruct (Nat.leb_spec (length vs) N) as [LE|LE]; [|discriminate]. injection E as <- <-.
    rewrite list_ok by auto. cbn [bind]. eexists; split; [reflexivity|]. apply A. rewrite app_length, repeat_length. lia.
  - destruct (nth_error v s) as [l|] eqn:H; [|discriminate]. injection E as <- <-. destruct (G _ _ H) as (-> & Ll). cbn [bind].
    rewrite copy_ok by (auto; unfold stk_new; apply repeat_length). cbn [bind]. eexists; split; [reflexivity|]. now apply A.
  - destruct (nth_error v d) as [k|] eqn:Hd; [|discriminate]. destruct (nth_error v s) as [l|] eqn:H; [|discriminate].
    injection E as <- <-. destruct (G _ _ H) as (-> & Ll). destruct (G _ _ Hd) as (-> & Lk). cbn [bind].
    assert (S : upd (map (map Some) v) d (map Some k) = map (map Some) v).
    { apply nth_error_ext. intros t. destruct (Nat.eq_dec t d) as [->|NE].
      - rewrite nth_error_upd_eq by (rewrite map_length; apply nth_error_Some; congruence). now rewrite nth_error_map, Hd.
      - now rewrite nth_error_upd_ne by congruence. }
    rewrite copy_ok by (auto; now rewrite map_length). cbn [bind].
    destruct sparse.
    + pose proof (NA eq_refl) as NE. cbn in NE. subst s. rewrite Nat.eqb_refl. eexists; split; [reflexivity|]. now apply P.
    + destruct (Nat.eqb_spec d s) as [<-|NE]; cbn [negb].
      * rewrite Hd in H. injection H as <-. eexists; split; [reflexivity|]. rewrite <- S. now apply P.
      * eexists; split; [reflexivity|]. now apply P.
  - destruct (nth_error v s) as [l|] eqn:H; [|discriminate]. destruct (Nat.ltb_spec i N) as [Li|Li]; [|discriminate].
    injection E as <- <-. destruct (G _ _ H) as (-> & Ll). cbn [bind]. rewrite wr_ok by (rewrite map_length; lia). cbn [bind].
    eexists; split; [reflexivity|]. rewrite <- map_upd_some. apply P. now rewrite upd_length.
  - destruct (nth_error v s) as [l|] eqn:H; [|discriminate]. destruct (nth_error l i) as [w|] eqn:Hw; [|discriminate].
    injection E as <- <-. destruct (G _ _ H) as (-> & Ll). cbn [bind]. unfold rd. rewrite nth_error_map, Hw. cbn.
    eexists; split; [reflexivity|]. split; auto.
  - destruct (nth_error v s) as [l|] eqn:H; [|discriminate]. injection E as <- <-. destruct (G _ _ H) as (-> & Ll). cbn [bind].
    eexists; split; [reflexivity|]. split; auto.
  - discriminate.
Qed.

Lemma run_sim sparse xs : forall m v v1 zs, holds m v -> (sparse = true -> Forall no_assign xs) ->
  kspec_run zero N v xs = Some (v1, zs) -> exists m1, krun zero N sparse m xs = Ok (m1, zs) /\ holds m1 v1.
Proof.
  induction xs as [|x xs IH]; intros m v v1 zs H NA E; cbn [kspec_run krun] in *.
  - injection E as <- <-. eauto.
  - destruct (kspec zero N v x) as [[v2 z]|] eqn:S; [|discriminate].
    destruct (kspec_run zero N v2 xs) as [[v3 zs']|] eqn:S'; [|discriminate]. injection E as <- <-.
    destruct (step_sim sparse m v x v2 z H (fun e => Forall_inv (NA e)) S) as (m1 & -> & H1). cbn [bind].
    destruct (IH _ _ _ _ H1 (fun e => Forall_inv_tail (NA e)) S') as (m2 & -> & H2). cbn [bind]. eauto.
Qed.
End P.

(** C75.  On the stack: every program the specification allows runs without
    undefined behaviour, reports what the specification says, and every storage
    then holds its own [N] values; nothing is allocated. *)
Theorem C75_stack_programs :
  forall (T : Type) (zero : T) (N : nat) (xs : list (kop T)) v zs,
    kspec_run zero N [] xs = Some (v, zs) ->
    krun zero N false [] xs = Ok (map (map Some) v, zs) /\ forall l, In l v -> length l = N.
Proof.
  intros T zero N xs v zs E. destruct (run_sim zero N false xs [] [] v zs) as (m & R & -> & L); auto.
  - split; [reflexivity|intros l []].
  - discriminate.
Qed.
Print Assumptions C75_stack_programs.

(** The sparse class: the same for programs that assign no storage to another. *)
Theorem C75_fixed_sparse_programs :
  forall (T : Type) (zero : T) (N : nat) (xs : list (kop T)) v zs,
    Forall no_assign xs -> kspec_run zero N [] xs = Some (v, zs) ->
    krun zero N true [] xs = Ok (map (map Some) v, zs) /\ forall l, In l v -> length l = N.
Proof.
  intros T zero N xs v zs NA E. destruct (run_sim zero N true xs [] [] v zs) as (m & R & -> & L); auto.
  split; [reflexivity|intros l []].
Qed.
Print Assumptions C75_fixed_sparse_programs.

Definition stk_demo : list (kop nat) :=
  [KList [1; 2]; KCopy 0; KWrite 1 0 7; KRead 0 0; KRead 1 0; KNew 5; KAssign 2 1; KRead 2 0; KRead 0 2; KAssign 0 0; KSize 2].
Example C75_stack_nonvacuous :
  kspec_run 0 3 [] stk_demo
  = Some ([[1; 2; 0]; [7; 2; 0]; [7; 2; 0]], [KNone; KNone; KNone; KVal 1; KVal 7; KNone; KNone; KVal 7; KVal 0; KNone; KNat 3]).
Proof. reflexivity. Qed.
Example C75_fixed_sparse_nonvacuous :
  let xs := [KNew 0; KWrite 0 1 4; KCopy 0; KWrite 0 1 5; KRead 1 1; KAssign 0 0; KRead 0 1] in
  Forall no_assign xs /\ exists v, kspec_run 0 2 [] xs = Some (v, [KNone; KNone; KNone; KNone; KVal 4; KNone; KVal 5]).
Proof. split; [repeat constructor|]. eexists. reflexivity. Qed.

(** Assigning one fixed-size sparse storage to another never changes it. *)
Theorem C75_sparse_assignment_refuted :
  forall (T : Type) (zero : T) (N : nat) m d s,
    d <> s -> d < length m -> s < length m -> kstep zero N true m (KAssign d s) = Ok (m, KNone).
Proof.
  intros T zero N m d s NE Ld Ls. cbn [kstep]. unfold stk_get.
  destruct (nth_error m d) eqn:Hd; [|apply nth_error_None in Hd; lia].
  destruct (nth_error m s) eqn:Hs; [|apply nth_error_None in Hs; lia]. cbn [bind].
  destruct (Nat.eqb_spec d s); [contradiction|reflexivity].
Qed.
Print Assumptions C75_sparse_assignment_refuted.
Example C75_sparse_assignment_nonvacuous :
  krun 0 1 true [] [KNew 0; KNew 0; KWrite 1 0 4; KAssign 0 1; KRead 0 0]
  = Ok ([[Some 0]; [Some 4]], [KNone; KNone; KNone; KNone; KVal 0]).
Proof. reflexivity. Qed.

(** A value list that is too long is written past the end of the object. *)
Theorem C75_long_list_refuted :
  forall (T : Type) (zero : T) (N : nat) (vs : list T) m,
    N < length vs -> kstep zero N false m (KList vs) = UB OOBWrite.
Proof.
  intros T zero N vs m L. cbn [kstep].
  assert (E : stk_list zero N vs = UB OOBWrite); [|now rewrite E].
  unfold stk_list, enum.
  rewrite <- (firstn_skipn N vs) at 1 2. destruct (skipn N vs) as [|w ws] eqn:S.
  - exfalso. assert (K : length (skipn N vs) = 0) by now rewrite S. rewrite skipn_length in K. lia.
  - rewrite app_length, seq_app, firstn_length. replace (min N (length vs)) with N by lia.
    assert (LF : length (firstn N vs) = N) by (rewrite firstn_length; lia).
    assert (C : forall A B (l1 l1' : list A) (l2 l2' : list B), length l1 = length l2 ->
              combine (l1 ++ l1') (l2 ++ l2') = combine l1 l2 ++ combine l1' l2').
    { induction l1; intros l1' [|b l2] l2' H; cbn in *; try lia; auto. f_equal. apply IHl1. lia. }
    rewrite C by (rewrite seq_length; lia). rewrite foldM_app.
    pose proof (list_ok zero N (firstn N vs) ltac:(lia)) as Q. unfold stk_list, enum in Q. rewrite LF in Q. rewrite Q.
    cbn [bind plus length seq combine foldM]. unfold wr. rewrite map_length, app_length, LF, repeat_length.
    destruct (Nat.ltb_spec N (N + (N - N))); [lia|]. reflexivity.
Qed.
Print Assumptions C75_long_list_refuted.
Example C75_long_list_nonvacuous : kstep 0 2 false [] (KList [1; 2; 3]) = UB OOBWrite.
Proof. reflexivity. Qed.

(** == does not compare the elements: two storages with the same elements are
    never equal. *)
Theorem C75_equality_refuted :
  forall (T : Type) (zero : T) (N : nat) sparse m a b,
    a < length m -> b < length m -> kstep zero N sparse m (KEq a b) = Ok (m, KBool (a =? b)).
Proof.
  intros T zero N sparse m a b La Lb. cbn [kstep]. unfold stk_get.
  destruct (nth_error m a) eqn:Ha; [|apply nth_error_None in Ha; lia].
  destruct (nth_error m b) eqn:Hb; [|apply nth_error_None in Hb; lia]. reflexivity.
Qed.
Print Assumptions C75_equality_refuted.
Example C75_equality_nonvacuous :
  krun 0 1 false [] [KNew 0; KCopy 0; KEq 0 1; KEq 0 0] = Ok ([[Some 0]; [Some 0]], [KNone; KNone; KBool false; KBool true]).
Proof. reflexivity. Qed.

(** A matrix of run-time dimensions with the on-stack option has no memory: every
    element access is out of bounds, and setting all elements does nothing. *)
Theorem C75_stack_matrix_refuted :
  forall (T : Type) (dbg : bool) (o : orient) (r c i j : nat) (v : T),
    i < r -> j < c ->
    dset dbg (stk_matrix o r c) i j v = UB OOBWrite /\
    dget dbg (stk_matrix (T := T) o r c) i j = UB OOBRead /\
    all_filler v (stk_matrix o r c) = Ok (stk_matrix o r c).
Proof.
  intros T dbg o r c i j v Hi Hj. unfold dset, dget, position, stk_matrix, cassert, own_shape.
  cbn [d_sh sh_rows sh_cols]. rewrite (proj2 (Nat.ltb_lt i r) Hi), (proj2 (Nat.ltb_lt j c) Hj).
  destruct dbg; cbn [bind]; (split; [|split]); destruct o; cbn; try reflexivity;
    match goal with |- context [wr [] ?p _] => now destruct p | |- context [rd [] ?p] => now destruct p | _ => idtac end;
    try (now destruct (_ : nat)).
Qed.
Print Assumptions C75_stack_matrix_refuted.
Example C75_stack_matrix_nonvacuous : dset true (stk_matrix ColMajor 2 2) 1 1 5 = UB OOBWrite.
Proof. reflexivity. Qed.
