(** Fillers, list construction, conversions, resize/move/swap of dense matrices. *)
From Verif Require Import Base BaseLemmas Dense_Model Dense_Spec Dense_Proofs Striped_Proofs.

(** * Element update *)
Definition upd2 {T} (f : nat -> nat -> T) (i j : nat) (v : T) : nat -> nat -> T :=
  fun i' j' => if (i' =? i) && (j' =? j) then v else f i' j'.

Lemma dset_ok {T} dbg (d : dense T) i j v :
  sh_ok (d_sh d) (length (d_buf d)) -> i < d_rows d -> j < d_cols d ->
  dset dbg d i j v = Ok (with_buf d (upd (d_buf d) (addr (d_sh d) i j) (Some v))).
Proof.
  intros Hok Hi Hj. rewrite dset_in by auto. rewrite wr_ok; [reflexivity|]. now apply Hok.
Qed.

Lemma view_upd {T} (d : dense T) r c f i j v :
  view d r c f -> sh_ok (d_sh d) (length (d_buf d)) -> i < r -> j < c ->
  view (with_buf d (upd (d_buf d) (addr (d_sh d) i j) (Some v))) r c (upd2 f i j v).
Proof.
  intros Hv Hok Hi Hj. pose proof Hv as (Hr & Hc & _).
  apply view_from_cells; auto. intros i' j' Hi' Hj'. cbn [with_buf d_buf d_sh].
  unfold upd2. unfold d_rows, d_cols in *.
  assert (Hlt : addr (d_sh d) i j < length (d_buf d)) by (apply Hok; lia).
  destruct (Nat.eqb_spec i' i) as [->|Hne]; cbn [andb].
  - destruct (Nat.eqb_spec j' j) as [->|Hne].
    + now apply nth_error_upd_eq.
    + rewrite nth_error_upd_ne; [now apply (view_cell d r c)|].
      intros E. destruct (addr_inj (d_sh d) _ i j i j' Hok); lia.
  - rewrite nth_error_upd_ne; [now apply (view_cell d r c)|].
    intros E. destruct (addr_inj (d_sh d) _ i j i' j' Hok); lia.
Qed.

Lemma is_mat_dset {T} dbg (d : dense T) r c f i j v :
  is_mat d r c f -> i < r -> j < c ->
  exists d', dset dbg d i j v = Ok d' /\ is_mat d' r c (upd2 f i j v) /\
             d_orient d' = d_orient d /\ d_full d' = d_full d /\ d_own d' = d_own d.
Proof.
  intros [Hw Hv] Hi Hj. pose proof Hv as (Hr & Hc & _).
  eexists; split; [apply dset_ok; try lia; now apply wf_sh_ok|].
  split; [split|].
  - apply with_buf_wf; auto. now rewrite upd_length.
  - apply view_upd; auto. now apply wf_sh_ok.
  - auto.
Qed.

Lemma view_ext {T} (d : dense T) r c f g :
  view d r c f -> (forall i j, i < r -> j < c -> f i j = g i j) -> view d r c g.
Proof.
  intros (Hr & Hc & H) E. split; [exact Hr|]; split; [exact Hc|]. intros i j Hi Hj.
  rewrite <- E by auto. auto.
Qed.
Lemma is_mat_ext {T} (d : dense T) r c f g :
  is_mat d r c f -> (forall i j, i < r -> j < c -> f i j = g i j) -> is_mat d r c g.
Proof. intros [Hw Hv] E; split; auto. now apply (view_ext d r c f). Qed.

(** * Storage order *)
Definition swap_pair (p : nat * nat) : nat * nat := (snd p, fst p).
Definition order (o : orient) (r c : nat) : list (nat * nat) :=
  match o with RowMajor => pairs r c | ColMajor => map swap_pair (pairs c r) end.
Definition lin (o : orient) (r c i j : nat) : nat :=
  match o with RowMajor => i * c + j | ColMajor => j * r + i end.

Lemma in_order o r c i j : In (i, j) (order o r c) <-> i < r /\ j < c.
Proof.
  destruct o; simpl; [apply in_pairs|]. rewrite in_map_iff. split.
  - intros ([x y] & E & H). inversion E; subst. apply in_pairs in H. tauto.
  - intros H. exists (j, i); split; auto. apply in_pairs; tauto.
Qed.

Lemma NoDup_order o r c : NoDup (order o r c).
Proof.
  destruct o; simpl; [apply NoDup_pairs|]. apply NoDup_map_inj; [apply NoDup_pairs|].
  intros [x y] [x' y'] _ _ E; now inversion E.
Qed.

Lemma seq_split_mul c r : forall s,
  flat_map (fun i => map (fun j => i * c + j) (seq 0 c)) (seq s r) = seq (s * c) (r * c).
Proof.
  induction r as [|r IH]; intros s; simpl; auto.
  rewrite IH. simpl. rewrite seq_app. f_equal.
  - clear. assert (G : forall c m k, map (fun j => m + j) (seq k c) = seq (m + k) c).
    { clear. induction c as [|c IH]; intros m k; simpl; auto. f_equal. rewrite IH. now rewrite Nat.add_succ_r. }
    rewrite G. now rewrite Nat.add_0_r.
  - f_equal; lia.
Qed.

Lemma pairs_lin r c : map (fun p => fst p * c + snd p) (pairs r c) = seq 0 (r * c).
Proof.
  transitivity (seq (0 * c) (r * c)); [|reflexivity]. rewrite <- (seq_split_mul c r 0). unfold pairs. generalize (seq 0 r) as l.
  induction l as [|i l IH]; simpl; auto. rewrite map_app, IH. f_equal. now rewrite map_map.
Qed.

Lemma order_lin o r c : map (fun p => lin o r c (fst p) (snd p)) (order o r c) = seq 0 (r * c).
Proof.
  destruct o; simpl; [apply pairs_lin|]. rewrite map_map. cbn [swap_pair fst snd].
  rewrite pairs_lin. f_equal; lia.
Qed.

Lemma own_addr_lin {T} (d : dense T) i j : wf_mem d ->
  addr (d_sh d) i j = lin (d_orient d) (d_rows d) (d_cols d) i j.
Proof.
  intros (Hs & Hb & _). unfold addr, lin, d_orient, d_rows, d_cols, getLdRows, getLdColumns.
  rewrite Hs, Hb. destruct (sh_o (d_sh d)); lia.
Qed.

(** A matrix or window whose element iterators work: owning, or a non-empty
    window whose extent fits the address space. *)
Definition iterable {T} (d : dense T) : Prop :=
  wf_mem d \/
  (sh_sub (d_sh d) = true /\ d_orient d = ColMajor /\ 1 <= d_rows d /\ 1 <= d_cols d /\
   sh_rows (d_sh d) <= sh_ldr (d_sh d) /\ sh_cols (d_sh d) <= sh_ldc (d_sh d) /\
   (Z.of_nat (d_cols d * sh_ldr (d_sh d)) < 2 ^ 63)%Z).

Lemma iter_addrs_ok {T} (d : dense T) : iterable d ->
  iter_addrs d = Ok (map (fun p => Z.of_nat (addr (d_sh d) (fst p) (snd p)))
                         (order (d_orient d) (d_rows d) (d_cols d))).
Proof.
  intros [Hw|(Hs & Ho & Hr & Hc & Hld & _ & Hb)]; unfold iter_addrs.
  - pose proof Hw as (Hs & Hbs & Hl). rewrite Hs, Hbs, Hl. f_equal.
    rewrite <- (order_lin (d_orient d)), map_map. apply map_ext; intros p.
    now rewrite own_addr_lin.
  - rewrite Hs, win_addrs; auto. unfold d_orient in Ho. f_equal. unfold d_orient. rewrite Ho. cbn [order].
    rewrite map_map. apply map_ext; intros p. reflexivity.
Qed.

Lemma wrz_nat {T} (b : buf T) a v : wrz b (Z.of_nat a) v = wrc b a (Some v).
Proof.
  unfold wrz. destruct (Z.ltb_spec (Z.of_nat a) 0); [lia|]. now rewrite Nat2Z.id.
Qed.
Lemma rdz_nat {T} (b : buf T) a : rdz b (Z.of_nat a) = rd b a.
Proof.
  unfold rdz. destruct (Z.ltb_spec (Z.of_nat a) 0); [lia|]. now rewrite Nat2Z.id.
Qed.

(** Generic "every element set in storage order". *)
Lemma fill_order {U} (d : dense U) (v : nat -> nat -> option U) :
  sh_ok (d_sh d) (length (d_buf d)) ->
  exists b', foldM (fun p d => do b <- wrc (d_buf d) (addr (d_sh d) (fst p) (snd p)) (v (fst p) (snd p));
                               Ok (with_buf d b))
                   (order (d_orient d) (d_rows d) (d_cols d)) d = Ok (with_buf d b') /\
    length b' = length (d_buf d) /\
    (forall i j, i < d_rows d -> j < d_cols d -> nth_error b' (addr (d_sh d) i j) = Some (v i j)) /\
    (forall a, (forall i j, i < d_rows d -> j < d_cols d -> a <> addr (d_sh d) i j) ->
         nth_error b' a = nth_error (d_buf d) a).
Proof.
  intros Hok.
  destruct (fill_pairs (d_sh d) (length (d_buf d)) v
    (fun i j d => do b <- wrc (d_buf d) (addr (d_sh d) i j) (v i j); Ok (with_buf d b)) Hok)
    with (ps := order (d_orient d) (d_rows d) (d_cols d)) (d := d) as (b' & E & L & Hin & Hout); auto.
  { intros i j d' _ _ Esh _. now rewrite Esh. }
  { apply NoDup_order. }
  { intros i j H; now apply in_order in H. }
  exists b'; repeat split; auto.
  - intros i j Hi Hj. apply Hin. now apply in_order.
  - intros a Ha. apply Hout. intros i j H; apply in_order in H; apply Ha; tauto.
Qed.

Lemma all_filler_spec {T} (v : T) (d : dense T) :
  iterable d -> sh_ok (d_sh d) (length (d_buf d)) ->
  exists b', all_filler v d = Ok (with_buf d b') /\ length b' = length (d_buf d) /\
    (forall i j, i < d_rows d -> j < d_cols d -> nth_error b' (addr (d_sh d) i j) = Some (Some v)) /\
    (forall a, (forall i j, i < d_rows d -> j < d_cols d -> a <> addr (d_sh d) i j) ->
         nth_error b' a = nth_error (d_buf d) a).
Proof.
  intros Hi Hok. destruct (fill_order d (fun _ _ => Some v) Hok) as (b' & E & L & H1 & H2).
  exists b'; repeat split; auto. unfold all_filler. rewrite (iter_addrs_ok d Hi). cbn [bind].
  rewrite foldM_map. rewrite <- E.
  assert (G : forall l (x : dense T), d_sh x = d_sh d ->
    foldM (fun y d0 => do b <- wrz (d_buf d0) (Z.of_nat (addr (d_sh d) (fst y) (snd y))) v; Ok (with_buf d0 b)) l x =
    foldM (fun p d0 => do b <- wrc (d_buf d0) (addr (d_sh d0) (fst p) (snd p)) (Some v); Ok (with_buf d0 b)) l x).
  { induction l as [|y l IH]; intros x Ex; [reflexivity|]. cbn [foldM]. rewrite wrz_nat, Ex.
    destruct (wrc (d_buf x) (addr (d_sh d) (fst y) (snd y)) (Some v)); cbn [bind]; auto. }
  now apply G.
Qed.

Lemma all_filler_mat {T} (v : T) (d : dense T) : wf_mem d ->
  exists d', all_filler v d = Ok d' /\ is_mat d' (d_rows d) (d_cols d) (fun _ _ => v) /\
             d_orient d' = d_orient d /\ d_full d' = d_full d /\ d_own d' = d_own d.
Proof.
  intros Hw. destruct (all_filler_spec v d (or_introl Hw) (wf_sh_ok d Hw)) as (b' & E & L & H & _).
  exists (with_buf d b'); repeat split; auto.
  - apply Hw.
  - apply Hw.
  - apply with_buf_wf; auto.
  - intros i j Hi Hj. rewrite dget_in by auto. apply rd_ok. now apply H.
Qed.

(** * Counting *)
Section Count.
  Context {T : Type} {S : Scalar T}.
  (** 1, 1+1, (1+1)+1, ... *)
  Definition cnt (k : nat) : T := Nat.iter k (fun v => sadd v s1) s1.

  Lemma cnt_fold {X} (w : X -> T -> dense T -> res (dense T)) (lin' : X -> nat) l : forall k d,
    map lin' l = seq k (length l) ->
    foldM (fun x '(v, d) => do d' <- w x v d; Ok (sadd v s1, d')) l (cnt k, d) =
    (do d' <- foldM (fun x d => w x (cnt (lin' x)) d) l d; Ok (cnt (k + length l), d')).
  Proof.
    induction l as [|x l IH]; intros k d E; cbn [foldM length].
    - cbn [bind]. now rewrite Nat.add_0_r.
    - cbn [map seq length] in E. injection E as E1 E2. rewrite E1.
      destruct (w x (cnt k) d) as [d'| | | |]; cbn [bind]; auto.
      change (sadd (cnt k) s1) with (cnt (Datatypes.S k)). rewrite IH by exact E2. now rewrite Nat.add_succ_r.
  Qed.

  Lemma foldM_ext_inv {X A} (P : A -> Prop) (f g : X -> A -> res A) l : forall s,
    P s -> (forall x s, In x l -> P s -> f x s = g x s) ->
    (forall x s s', In x l -> P s -> g x s = Ok s' -> P s') -> foldM f l s = foldM g l s.
  Proof.
    induction l as [|x l IH]; intros s Hs Hfg Hp; [reflexivity|]. cbn [foldM].
    rewrite Hfg by (auto; now left). destruct (g x s) as [s'| | | |] eqn:E; cbn [bind]; auto.
    apply IH; intros.
    - eapply Hp; eauto; now left.
    - apply Hfg; auto; now right.
    - eapply Hp; eauto; now right.
  Qed.

  Lemma continuous_spec (d : dense T) :
    iterable d -> sh_ok (d_sh d) (length (d_buf d)) ->
    exists b', continuous_filler d = Ok (with_buf d b') /\ length b' = length (d_buf d) /\
      (forall i j, i < d_rows d -> j < d_cols d ->
         nth_error b' (addr (d_sh d) i j) =
         Some (Some (cnt (lin (d_orient d) (d_rows d) (d_cols d) i j)))) /\
      (forall a, (forall i j, i < d_rows d -> j < d_cols d -> a <> addr (d_sh d) i j) ->
         nth_error b' a = nth_error (d_buf d) a).
  Proof.
    intros Hi Hok.
    destruct (fill_order d (fun i j => Some (cnt (lin (d_orient d) (d_rows d) (d_cols d) i j))) Hok)
      as (b' & E & L & H1 & H2).
    exists b'; repeat split; auto. unfold continuous_filler. rewrite (iter_addrs_ok d Hi). cbn [bind].
    rewrite foldM_map.
    set (ps := order (d_orient d) (d_rows d) (d_cols d)) in *.
    pose proof (cnt_fold (fun (p : nat * nat) v d0 => do b <- wrz (d_buf d0) (Z.of_nat (addr (d_sh d) (fst p) (snd p))) v; Ok (with_buf d0 b))
      (fun p => lin (d_orient d) (d_rows d) (d_cols d) (fst p) (snd p)) ps 0 d) as G.
    change (cnt 0) with s1 in G.
    assert (Elen : length ps = d_rows d * d_cols d)
      by (rewrite <- (seq_length (d_rows d * d_cols d) 0), <- (order_lin (d_orient d)), map_length; reflexivity).
    rewrite Elen in G. specialize (G (order_lin _ _ _)).
    transitivity (do r <- foldM (fun (x : nat * nat) '(v, d0) =>
        do d' <- (do b <- wrz (d_buf d0) (Z.of_nat (addr (d_sh d) (fst x) (snd x))) v; Ok (with_buf d0 b));
        Ok (sadd v s1, d')) ps (s1, d); Ok (snd r)).
    { f_equal. apply foldM_ext. intros p [v d0] _. rewrite bind_assoc. reflexivity. }
    rewrite G, bind_assoc. cbn [bind snd]. rewrite bind_ret. rewrite <- E.
    apply (foldM_ext_inv (fun x => d_sh x = d_sh d)); auto.
    - intros p x _ Ex. rewrite wrz_nat, Ex. reflexivity.
    - intros p x x' _ Ex H. apply bind_ok in H as (b & _ & H). inversion H; subst. exact Ex.
  Qed.

  Lemma hilbert_spec (sdiv : T -> T -> T) (d : dense T) : sh_ok (d_sh d) (length (d_buf d)) ->
    exists b', hilbert_filler sdiv d = Ok (with_buf d b') /\ length b' = length (d_buf d) /\
      (forall i j, i < d_rows d -> j < d_cols d ->
         nth_error b' (addr (d_sh d) i j) =
         Some (Some (sdiv s1 (ssub (sadd (cnt i) (cnt j)) s1)))) /\
      (forall a, (forall i j, i < d_rows d -> j < d_cols d -> a <> addr (d_sh d) i j) ->
         nth_error b' a = nth_error (d_buf d) a).
  Proof.
    intros Hok. set (g := fun i j => sdiv s1 (ssub (sadd (cnt i) (cnt j)) s1)).
    destruct (fill_rc (d_sh d) (length (d_buf d)) (fun i j => Some (g i j))
      (fun i j x => do b <- wr (d_buf x) (addr (d_sh d) i j) (g i j); Ok (with_buf x b)) Hok)
      with (d := d) as (b' & E & L & H1 & H2); auto.
    exists b'; repeat split; auto.
    unfold hilbert_filler, d_rows.
    set (row_step := fun i (row : T) x => do ads <- cur_addrs (d_sh x) DRow DCol i;
      do q <- foldM (fun a '(column, d0) => do b <- wr (d_buf d0) a (sdiv s1 (ssub (sadd row column) s1));
              Ok (sadd column s1, with_buf d0 b)) ads (s1, x); Ok (snd q)).
    transitivity (do r <- foldM (fun i '(row, x) => do x' <- row_step i row x; Ok (sadd row s1, x'))
                    (seq 0 (sh_rows (d_sh d))) (s1, d); Ok (snd r)).
    { unfold forM. f_equal. apply foldM_ext. intros i [row x] _. unfold row_step.
      rewrite bind_assoc. apply bind_ext; intros ads _. rewrite bind_assoc. apply bind_ext; reflexivity. }
    change s1 with (cnt 0) at 2.
    rewrite (cnt_fold row_step (fun i => i)) by (rewrite map_id, seq_length; reflexivity).
    rewrite bind_assoc. cbn [bind snd]. rewrite bind_ret, <- E. unfold forM.
    apply (foldM_ext_inv (fun x => d_sh x = d_sh d)); auto.
    - intros i x Hi Ex. apply in_seq in Hi. unfold row_step. rewrite Ex, cur_rc by (try lia; apply Hok).
      cbn [bind]. rewrite foldM_map.
      transitivity (do q <- foldM (fun j '(column, d0) =>
          do d' <- (do b <- wr (d_buf d0) (addr (d_sh d) i j) (sdiv s1 (ssub (sadd (cnt i) column) s1)); Ok (with_buf d0 b));
          Ok (sadd column s1, d')) (seq 0 (sh_cols (d_sh d))) (cnt 0, x); Ok (snd q)).
      { f_equal. apply foldM_ext. intros j [col y] _. rewrite bind_assoc. reflexivity. }
      rewrite (cnt_fold (fun j column d0 => do b <- wr (d_buf d0) (addr (d_sh d) i j) (sdiv s1 (ssub (sadd (cnt i) column) s1)); Ok (with_buf d0 b)) (fun j => j))
        by (rewrite map_id, seq_length; reflexivity).
      rewrite bind_assoc. cbn [bind snd]. rewrite bind_ret. reflexivity.
    - intros i x x' _ Ex H.
      refine (foldM_inv_ok _ (fun x => d_sh x = d_sh d) _ x x' Ex _ H).
      intros j y y' _ Ey Hy. apply bind_ok in Hy as (b & _ & Hy). inversion Hy; subst; exact Ey.
  Qed.

  Lemma diagonal_spec dbg (v : T) (d : dense T) n : wf_mem d -> d_rows d = n -> d_cols d = n ->
    exists d', diagonal_filler dbg v d = Ok d' /\
      is_mat d' n n (fun i j => if i =? j then v else s0) /\ d_orient d' = d_orient d.
  Proof.
    intros Hw Hr Hc. unfold diagonal_filler. rewrite Hr, Hc, Nat.eqb_refl. cbn [negb].
    destruct (all_filler_mat s0 d Hw) as (d1 & E1 & M1 & O1 & _). rewrite E1. cbn [bind].
    rewrite Hr, Hc in M1.
    destruct (forM_inv (fun i d => dset dbg d i i v)
      (fun k x => is_mat x n n (fun i j => if (i =? j) && (i <? k) then v else s0) /\ d_orient x = d_orient d) n d1)
      as (d' & E' & M' & O').
    - split; [|exact O1]. apply (is_mat_ext _ _ _ _ _ M1). intros i j Hi Hj.
      change (i <? 0) with false. now rewrite andb_false_r.
    - intros k x Hk [Mx Ox]. destruct (is_mat_dset dbg x n n _ k k v Mx Hk Hk) as (x' & Ex & Mx' & Ox' & _).
      exists x'; split; [exact Ex|]. split; [|now rewrite Ox'].
      apply (is_mat_ext _ _ _ _ _ Mx'). intros i j Hi Hj. unfold upd2.
      destruct (Nat.eqb_spec i k), (Nat.eqb_spec j k), (Nat.eqb_spec i j), (Nat.ltb_spec i k), (Nat.ltb_spec i (Datatypes.S k));
        cbn [andb]; auto; lia.
    - exists d'; split; [exact E'|]. split; [|exact O']. apply (is_mat_ext _ _ _ _ _ M').
      intros i j Hi Hj. destruct (Nat.ltb_spec i n); [|lia]. now rewrite andb_true_r.
  Qed.

  Lemma diagonal_throw dbg (v : T) (d : dense T) :
    d_rows d <> d_cols d -> diagonal_filler dbg v d = Throw.
  Proof.
    intros H. unfold diagonal_filler. destruct (Nat.eqb_spec (d_rows d) (d_cols d)); [contradiction|reflexivity].
  Qed.
End Count.

(** * Nested lists *)
Lemma init_list_spec {T} o (values : list (list T)) r c f :
  length values = r -> 1 <= r ->
  (forall i, i < r -> exists row, nth_error values i = Some row /\ length row = c /\
     forall j, j < c -> nth_error row j = Some (f i j)) ->
  exists d, d_init_list o values = Ok d /\ is_mat d r c f /\ d_orient d = o /\ full_ok d /\ d_own d = true.
Proof.
  intros Hl Hr Hv. unfold d_init_list. destruct values as [|first rest]; [simpl in Hl; lia|].
  assert (Hc : length first = c).
  { destruct (Hv 0 ltac:(lia)) as (row & E & L & _). simpl in E. now inversion E; subst. }
  set (values := first :: rest) in *. rewrite Hl, Hc. set (d0 := @d_new T o r c).
  assert (W0 : wf_mem d0) by apply d_new_wf.
  set (F := fun i j (d : dense T) =>
    match nth_error values i with
    | None => UB OOBRead
    | Some row => match nth_error row j with
                  | None => UB OOBRead
                  | Some v => do b <- wr (d_buf d) (addr (d_sh d0) i j) v; Ok (with_buf d b)
                  end
    end).
  destruct (fill_rc (d_sh d0) (length (d_buf d0)) (fun i j => Some (f i j)) F (wf_sh_ok d0 W0))
    with (d := d0) as (b' & E & L & Hin & _); auto.
  { intros i j d Hi Hj Esh _. unfold F. cbn in Hi, Hj.
    destruct (Hv i Hi) as (row & Er & _ & Hj'). rewrite Er, (Hj' j Hj). reflexivity. }
  exists (with_buf d0 b'). split; [|split; [split|]].
  - rewrite <- E. unfold forM. cbn [sh_rows sh_cols d_sh d0 d_new own_shape].
    apply (foldM_ext_inv (fun x => d_sh x = d_sh d0)); auto.
    + intros i x Hi Ex. apply in_seq in Hi. destruct (Hv i ltac:(lia)) as (row & Er & _ & Hj').
      rewrite Er, Ex, cur_rc by (cbn; lia). cbn [bind]. rewrite enum_map_seq, foldM_map.
      apply foldM_ext. intros j y Hj. apply in_seq in Hj. unfold F. rewrite Er. reflexivity.
    + intros i x x' _ Ex H.
      refine (foldM_inv_ok _ (fun x => d_sh x = d_sh d0) _ x x' Ex _ H).
      intros j y y' _ Ey Hy. unfold F in Hy. destruct (nth_error values i) as [row|]; [|discriminate].
      destruct (nth_error row j) as [v|]; [|discriminate].
      apply bind_ok in Hy as (b & _ & Hy). inversion Hy; subst; exact Ey.
  - apply with_buf_wf; auto.
  - apply view_from_cells; auto.
  - repeat split; auto.
Qed.

(** * Conversions *)
Lemma nth_map_cv {T U} (cv : T -> U) (b : buf T) a v :
  nth_error b a = Some (Some v) -> nth_error (map (option_map cv) b) a = Some (Some (cv v)).
Proof. intros E. now rewrite nth_error_map_eq, E. Qed.

Lemma own_addr_eq {T U} (d1 : dense T) (d2 : dense U) i j :
  wf_mem d1 -> wf_mem d2 -> d_orient d1 = d_orient d2 -> d_rows d1 = d_rows d2 -> d_cols d1 = d_cols d2 ->
  addr (d_sh d1) i j = addr (d_sh d2) i j.
Proof.
  intros (S1 & B1 & _) (S2 & B2 & _) Ho Hr Hc.
  unfold addr, getLdRows, getLdColumns, d_orient, d_rows, d_cols in *.
  rewrite S1, S2, B1, B2, Ho, Hr, Hc. reflexivity.
Qed.

Lemma conv_same_spec {T U} (cv : T -> U) (d : dense T) r c f :
  is_mat d r c f ->
  is_mat (d_conv_same cv d) r c (fun i j => cv (f i j)) /\
  d_orient (d_conv_same cv d) = d_orient d /\ full_ok (d_conv_same cv d) /\ d_own (d_conv_same cv d) = true.
Proof.
  intros [Hw Hv]. pose proof Hv as (Hr & Hc & _).
  assert (W' : wf_mem (d_conv_same cv d)).
  { repeat split; auto. simpl. rewrite map_length. apply Hw. }
  split; [split; [exact W'|]|repeat split; auto].
  apply view_from_cells; auto. intros i j Hi Hj.
  rewrite (own_addr_eq (d_conv_same cv d) d) by auto. simpl. apply nth_map_cv.
  now apply (view_cell d r c f).
Qed.

Lemma conv_flip_spec {T U} (cv : T -> U) (d : dense T) r c f :
  is_mat d r c f ->
  exists d', d_conv_flip cv d = Ok d' /\ is_mat d' r c (fun i j => cv (f i j)) /\
    d_orient d' = flip (d_orient d) /\ full_ok d' /\ d_own d' = true.
Proof.
  intros [Hw Hv]. pose proof Hv as (Hr & Hc & _).
  destruct (transpose_spec d r c f Hv) as (t & Et & [Wt Vt] & Ot & _); [apply wf_sh_ok in Hw; apply Hw|].
  unfold d_conv_flip. rewrite Et. cbn [bind]. eexists; split; [reflexivity|].
  pose proof Vt as (Tr & Tc & _).
  assert (W' : wf_mem (mkDense (own_shape (flip (d_orient d)) (d_rows d) (d_cols d)) (d_rows d * d_cols d)
     (map (option_map cv) (d_buf t)) true)).
  { repeat split; auto. simpl. rewrite map_length. destruct Wt as (_ & _ & ->). rewrite Tr, Tc.
    transitivity (d_rows d * d_cols d); [rewrite Hr, Hc; lia|reflexivity]. }
  split; [split; [exact W'|]|repeat split; auto].
  apply view_from_cells; auto. intros i j Hi Hj. simpl.
  replace (addr (own_shape (flip (d_orient d)) (d_rows d) (d_cols d)) i j) with (addr (d_sh t) j i).
  - apply nth_map_cv. now apply (view_cell t c r (fun i j => f j i)).
  - rewrite own_addr_lin by auto. rewrite Ot, Tr, Tc, Hr, Hc.
    unfold addr, lin, own_shape, getLdRows, getLdColumns; simpl. destruct (d_orient d); simpl; lia.
Qed.

Lemma conv_window_spec {T U} (cv : T -> U) (zero : U) (chk : T -> bool) (w : dense T) r c f :
  view w r c f -> full_ok w -> iterable w -> sh_sub (d_sh w) = true ->
  exists d', d_conv_window cv zero chk w = Ok d' /\
    is_mat d' r c (fun i j => if chk (f i j) then cv (f i j) else zero) /\
    d_orient d' = ColMajor /\ full_ok d' /\ d_own d' = true.
Proof.
  intros Hv Hf Hi Hs. pose proof Hv as (Hr & Hc & _).
  set (d0 := @mkDense U (own_shape ColMajor (d_rows w) (d_cols w)) (d_rows w * d_cols w)
       (alloc (d_getSize w)) true).
  assert (W0 : wf_mem d0).
  { repeat split; auto. simpl. rewrite alloc_length. exact Hf. }
  set (g := fun i j => if chk (f i j) then cv (f i j) else zero).
  destruct (fill_order d0 (fun i j => Some (g i j)) (wf_sh_ok d0 W0)) as (b' & E & L & Hin & _).
  destruct Hi as [(Hs' & _)|Hi]; [congruence|].
  pose proof Hi as (_ & Ho & _).
  exists (with_buf d0 b'). split; [|split; [split|]].
  - unfold d_conv_window. fold d0. rewrite <- E. pose proof (iter_addrs_ok w (or_intror Hi)) as Ha.
    unfold iter_addrs in Ha. rewrite Hs in Ha. rewrite Ha. cbn [bind]. rewrite Ho.
    change (d_orient d0) with ColMajor. change (d_rows d0) with (d_rows w). change (d_cols d0) with (d_cols w).
    set (ps := order ColMajor (d_rows w) (d_cols w)).
    assert (Een : enum (map (fun p => Z.of_nat (addr (d_sh w) (fst p) (snd p))) ps) =
       map (fun p => (lin ColMajor (d_rows w) (d_cols w) (fst p) (snd p), Z.of_nat (addr (d_sh w) (fst p) (snd p)))) ps).
    { unfold enum. rewrite map_length.
      replace (seq 0 (length ps)) with (map (fun p => lin ColMajor (d_rows w) (d_cols w) (fst p) (snd p)) ps).
      - clear. induction ps as [|p ps IH]; simpl; auto. f_equal; auto.
      - unfold ps. rewrite order_lin. f_equal.
        rewrite <- (seq_length (d_rows w * d_cols w) 0), <- (order_lin ColMajor), map_length. reflexivity. }
    rewrite Een, foldM_map.
    apply (foldM_ext_inv (fun x => d_sh x = d_sh d0)); auto.
    + intros [i j] x Hp Ex. apply in_order in Hp as [Hpi Hpj]. cbn [fst snd]. rewrite rdz_nat.
      rewrite (proj2 (rd_ok _ _ (f i j))) by (apply (view_cell w r c); auto; lia). cbn [bind].
      rewrite Ex. fold (g i j). unfold wr, wrc. rewrite (own_addr_lin d0 i j W0). reflexivity.
    + intros p x x' _ Ex H. apply bind_ok in H as (b & _ & H). inversion H; subst; exact Ex.
  - apply with_buf_wf; auto.
  - apply view_from_cells; [exact Hr|exact Hc|]. intros i j Hpi Hpj. simpl. apply Hin; simpl; auto.
    + change (d_rows d0) with (d_rows w); lia.
    + change (d_cols d0) with (d_cols w); lia.
  - repeat split; auto.
Qed.

(** * Windows *)
Lemma window_view {T} (p : dense T) r c f nr nc br bc :
  is_mat p r c f -> inside p nr nc br bc ->
  view (d_window p nr nc br bc) nr nc (fun i j => f (br + i) (bc + j)).
Proof.
  intros [Hw Hv] Hin. pose proof Hin as (_ & _ & H1 & H2). pose proof Hv as (Hr & Hc & _).
  apply view_from_cells; auto. intros i j Hi Hj.
  rewrite window_addr by auto. simpl. apply (view_cell p r c f); auto; lia.
Qed.

Lemma window_iterable {T} (p : dense T) nr nc br bc :
  inside p nr nc br bc -> 1 <= nr -> 1 <= nc -> (Z.of_nat (length (d_buf p)) < 2 ^ 63)%Z ->
  iterable (d_window p nr nc br bc).
Proof.
  intros ((Hs & Hb & Hl) & Ho & Hr & Hc) H1 H2 Hbd. right. unfold d_window, d_orient, d_rows, d_cols in *; simpl.
  repeat split; auto; try lia. rewrite Hl in Hbd. nia.
Qed.

(** Writing through a window is writing the parent's element. *)
Lemma window_set {T} (p : dense T) r c f nr nc br bc dbg i j v :
  is_mat p r c f -> inside p nr nc br bc -> i < nr -> j < nc ->
  exists m, dset dbg (d_window p nr nc br bc) i j v = Ok (with_buf (d_window p nr nc br bc) m) /\
    is_mat (with_buf p m) r c (upd2 f (br + i) (bc + j) v).
Proof.
  intros [Hw Hv] Hin Hi Hj. pose proof Hin as (_ & _ & H1 & H2). pose proof Hv as (Hr & Hc & _).
  exists (upd (d_buf p) (addr (d_sh p) (br + i) (bc + j)) (Some v)). split.
  - rewrite dset_ok; auto.
    + now rewrite window_addr.
    + exact (wf_window_ok p nr nc br bc Hin).
  - split.
    + apply with_buf_wf; auto. now rewrite upd_length.
    + apply view_upd; auto; [now apply wf_sh_ok|lia|lia].
Qed.

(** copy() into a window of a parent. *)
Lemma copy_window {T U} (cv : T -> U) (src : dense T) (p : dense U) r c f nr nc g br bc :
  is_mat src nr nc g -> is_mat p r c f -> inside p nr nc br bc ->
  exists m, d_copy cv src (d_window p nr nc br bc) = Ok (with_buf (d_window p nr nc br bc) m) /\
    is_mat (with_buf p m) r c
      (fun i j => if (br <=? i) && (i <? br + nr) && (bc <=? j) && (j <? bc + nc)
                  then cv (g (i - br) (j - bc)) else f i j).
Proof.
  intros [Ws Vs] [Hw Hv] Hin. pose proof Hin as (_ & _ & H1 & H2). pose proof Hv as (Hr & Hc & _).
  destruct (d_copy_spec cv src (d_window p nr nc br bc) nr nc g Vs) as (m & E & L & Hi & Ho); auto.
  { apply (wf_sh_ok src Ws). }
  { exact (wf_window_ok p nr nc br bc Hin). }
  exists m; split; [exact E|]. split; [now apply with_buf_wf|].
  apply view_from_cells; auto. intros i j Hi' Hj'. cbn [with_buf d_buf d_sh].
  destruct (Nat.leb_spec br i), (Nat.ltb_spec i (br + nr)), (Nat.leb_spec bc j), (Nat.ltb_spec j (bc + nc));
    cbn [andb].
  1: { specialize (Hi (i - br) (j - bc) ltac:(lia) ltac:(lia)). rewrite window_addr in Hi by auto.
       replace (br + (i - br)) with i in Hi by lia. replace (bc + (j - bc)) with j in Hi by lia. exact Hi. }
  all: rewrite Ho; [now apply (view_cell p r c f)|];
    intros i2 j2 Hi2 Hj2 Ea; rewrite window_addr in Ea by auto;
    destruct (addr_inj (d_sh p) _ i j (br + i2) (bc + j2) (wf_sh_ok p Hw)); unfold d_rows, d_cols in *; lia.
Qed.

(** copy() into an owning matrix of the same dimensions. *)
Lemma copy_mat {T U} (cv : T -> U) (src : dense T) (dst : dense U) r c f :
  view src r c f -> sh_rows (d_sh src) <= getLdRows (d_sh src) -> wf_mem dst -> d_rows dst = r -> d_cols dst = c ->
  exists d', d_copy cv src dst = Ok d' /\ is_mat d' r c (fun i j => cv (f i j)).
Proof.
  intros Hv Hs Hw Hr Hc.
  destruct (d_copy_spec cv src dst r c f Hv Hs Hr Hc (wf_sh_ok dst Hw)) as (b & E & L & Hi & _).
  exists (with_buf dst b); split; auto. split; [now apply with_buf_wf|]. now apply view_from_cells.
Qed.
