(** C66: the table the benchmark prints. *)
From Coq Require Import String List.
Import ListNotations.
#[local] Open Scope list_scope.
From Verif Require Import Base BaseLemmas Dense_Model Dense_Spec Dense_Proofs Dense2_Proofs Sparse_Model
  Mult_Model Mult_Spec Mult_Proofs Dyn_Model Norm_Model Tools_Model Bench_Model Bench_Spec Bench_Proofs.

Section Table.
Context {D A : Type} (zero : D) (exec : A -> dense D -> dense D -> res (dense D))
  (diff : dense D -> dense D -> res (dense D)) (norms : dense D -> res (D * D)) (write_diff : bool).
Notation tf := (table_from zero exec diff norms write_diff).
Notation rst := (rest exec diff norms write_diff).

(** The difference to the reference result and its norms. *)
Definition measured (x : A) (a b refC : dense D) : res (dense D * (D * D)) :=
  do c <- exec x a b; do d <- diff c refC; do n <- norms d; Ok (d, n).

Definition puts (i : nat) (es : list (dense D)) (fs : list (nat * buf D)) : list (nat * buf D) :=
  if write_diff then fold_left (fun fs e => put_file i (d_buf e) fs) es fs else fs.

Lemma rest_run i acts a b refC : forall k o p E N,
  p <= length acts ->
  (forall q x, q < p -> nth_error acts q = Some x -> measured x a b refC = Ok (E q, N q)) ->
  let o' := mkOutput (o_rows o ++ map (fun q => mkRow i (k + q) (fst (N q)) (snd (N q))) (seq 0 p))
                     (puts i (map E (seq 0 p)) (o_files o)) in
  (p = length acts -> rst i k acts a b refC o = (o', Ok tt)) /\
  (forall x, nth_error acts p = Some x -> measured x a b refC = Throw -> rst i k acts a b refC o = (o', Throw)).
Proof.
  induction acts as [|y acts IH]; intros k o p E N Hp HM o'; cbn in Hp.
  - assert (p = 0) as -> by lia. subst o'. cbn. rewrite app_nil_r. unfold puts. destruct write_diff; destruct o; cbn; (split; [reflexivity|discriminate]).
  - destruct p as [|p].
    + split; [discriminate|]. cbn [nth_error]. intros x [= <-] HT. cbn [rest]. unfold measured in HT. rewrite HT.
      subst o'. cbn. rewrite app_nil_r. unfold puts. destruct write_diff; destruct o; reflexivity.
    + pose proof (HM 0 y ltac:(lia) eq_refl) as H0. cbn [rest]. unfold measured in H0 at 1. rewrite H0.
      destruct (N 0) as [m t] eqn:E0.
      assert (HM' : forall q x, q < p -> nth_error acts q = Some x -> measured x a b refC = Ok (E (S q), N (S q)))
        by (intros q x Hq Hx; apply HM; [lia|exact Hx]).
      specialize (IH (S k) (mkOutput (o_rows o ++ [mkRow i k m t])
          (if write_diff then put_file i (d_buf (E 0)) (o_files o) else o_files o)) p (fun q => E (S q)) (fun q => N (S q))
          (le_S_n _ _ Hp) HM'). cbv zeta in IH.
      assert (EO : mkOutput (o_rows o ++ map (fun q => mkRow i (k + q) (fst (N q)) (snd (N q))) (seq 0 (S p))) (puts i (map E (seq 0 (S p))) (o_files o)) =
        mkOutput ((o_rows o ++ [mkRow i k m t]) ++ map (fun q => mkRow i (S k + q) (fst (N (S q))) (snd (N (S q)))) (seq 0 p))
          (puts i (map (fun q => E (S q)) (seq 0 p)) (if write_diff then put_file i (d_buf (E 0)) (o_files o) else o_files o))).
      { f_equal.
        - cbn [seq map]. rewrite <- app_assoc. cbn [app]. rewrite E0, Nat.add_0_r. cbn [fst snd]. f_equal. f_equal.
          rewrite <- seq_shift, map_map. apply map_ext. intros q. now rewrite Nat.add_succ_r.
        - cbn [seq map]. rewrite <- seq_shift, map_map. unfold puts. destruct write_diff; reflexivity. }
      subst o'. rewrite EO. cbn [o_rows o_files] in IH. destruct IH as [I1 I2]. split.
      * intros Q. apply I1. cbn in Q. lia.
      * intros x Hx. apply I2. exact Hx.
Qed.

Section Run.
Variables (first : A) (others : list A).
Notation na := (S (length others)).
Variables (C : nat -> dense D) (E : nat -> nat -> dense D) (N : nat -> nat -> D * D).

(** Action [k] on pair number [i] goes through with these results. *)
Definition goes (ps : list (dense D * dense D)) (s i k : nat) : Prop :=
  forall a b, nth_error ps (i - s) = Some (a, b) ->
    match k with
    | 0 => exec first a b = Ok (C i)
    | S q => forall x, nth_error others q = Some x -> measured x a b (C i) = Ok (E i k, N i k)
    end.
(** It throws. *)
Definition throws (ps : list (dense D * dense D)) (s i k : nat) : Prop :=
  exists a b, nth_error ps (i - s) = Some (a, b) /\
    match k with
    | 0 => exec first a b = Throw
    | S q => exists x, nth_error others q = Some x /\ measured x a b (C i) = Throw
    end.

Lemma goes_cons p ps s i k : s < i -> goes (p :: ps) s i k <-> goes ps (S s) i k.
Proof. intros H. unfold goes. replace (i - s) with (S (i - S s)) by lia. reflexivity. Qed.
Lemma throws_cons p ps s i k : s < i -> throws (p :: ps) s i k <-> throws ps (S s) i k.
Proof. intros H. unfold throws. replace (i - s) with (S (i - S s)) by lia. reflexivity. Qed.

Definition pair_rows (i : nat) (n : nat) : list row := map (fun k => row_at zero N (i, k)) (seq 0 n).
Lemma pair_rows_S i n : pair_rows i (S n) = mkRow i 0 zero zero :: map (fun q => mkRow i (1 + q) (fst (N i (S q))) (snd (N i (S q)))) (seq 0 n).
Proof. unfold pair_rows. cbn [seq map]. f_equal. rewrite <- seq_shift, map_map. apply map_ext. intros q. reflexivity. Qed.
Definition pair_files (i n : nat) (fs : list (nat * buf D)) : list (nat * buf D) := puts i (map (E i) (seq 1 n)) fs.

Lemma one_pair a b ps s o : (forall k, k < na -> goes ((a, b) :: ps) s s k) ->
  tf s first others ((a, b) :: ps) o =
    tf (S s) first others ps (mkOutput (o_rows o ++ pair_rows s na) (pair_files s (length others) (o_files o))).
Proof.
  intros H. cbn [table_from].
  assert (H0 := H 0 ltac:(lia) a b). rewrite Nat.sub_diag in H0. rewrite (H0 eq_refl).
  destruct (rest_run s others a b (C s) 1 (mkOutput (o_rows o ++ [mkRow s 0 zero zero]) (o_files o)) (length others)
     (fun q => E s (S q)) (fun q => N s (S q)) (le_n _)) as [R1 _].
  { intros q x Hq Hx. specialize (H (S q) ltac:(lia) a b). rewrite Nat.sub_diag in H. exact (H eq_refl x Hx). }
  rewrite R1 by reflexivity. f_equal. cbn [o_rows o_files]. rewrite pair_rows_S, <- app_assoc. f_equal.
  unfold pair_files. rewrite <- seq_shift, map_map. reflexivity.
Qed.
Lemma part_pair a b ps s o p : p < na -> (forall k, k < p -> goes ((a, b) :: ps) s s k) -> throws ((a, b) :: ps) s s p ->
  tf s first others ((a, b) :: ps) o =
    (mkOutput (o_rows o ++ pair_rows s p) (pair_files s (p - 1) (o_files o)), Throw).
Proof.
  intros Hp H (a' & b' & Q & HT). rewrite Nat.sub_diag in Q. injection Q as <- <-. cbn [table_from]. destruct p as [|p].
  - rewrite HT. cbn. rewrite app_nil_r. unfold pair_files, puts. cbn. destruct write_diff; destruct o; reflexivity.
  - assert (H0 := H 0 ltac:(lia) a b). rewrite Nat.sub_diag in H0. rewrite (H0 eq_refl). destruct HT as (x & Hx & HT).
    destruct (rest_run s others a b (C s) 1 (mkOutput (o_rows o ++ [mkRow s 0 zero zero]) (o_files o)) p
       (fun q => E s (S q)) (fun q => N s (S q)) ltac:(lia)) as [_ R2].
    { intros q y Hq Hy. specialize (H (S q) ltac:(lia) a b). rewrite Nat.sub_diag in H. exact (H eq_refl y Hy). }
    rewrite (R2 x Hx HT). f_equal. cbn [o_rows o_files]. rewrite pair_rows_S, <- app_assoc. f_equal.
    unfold pair_files. replace (S p - 1) with p by lia. rewrite <- seq_shift, map_map. reflexivity.
Qed.

Lemma table_run ps : forall s o, (forall i k, s <= i < s + length ps -> k < na -> goes ps s i k) ->
  tf s first others ps o =
    (mkOutput (o_rows o ++ flat_map (fun i => pair_rows i na) (seq s (length ps)))
              (fold_left (fun fs i => pair_files i (length others) fs) (seq s (length ps)) (o_files o)), Ok tt).
Proof.
  induction ps as [|[a b] ps IH]; intros s o H.
  - cbn. rewrite app_nil_r. destruct o; reflexivity.
  - rewrite one_pair by (intros k Hk; apply H; cbn; lia). rewrite IH.
    + cbn [o_rows o_files length seq flat_map fold_left]. now rewrite <- app_assoc.
    + intros i k Hi Hk. apply (goes_cons (a, b)); [lia|]. apply H; cbn; lia.
Qed.
Lemma table_stop ps : forall s o i0 k0, s <= i0 < s + length ps -> k0 < na ->
  (forall i k, s <= i -> k < na -> i < i0 \/ i = i0 /\ k < k0 -> goes ps s i k) -> throws ps s i0 k0 ->
  tf s first others ps o =
    (mkOutput (o_rows o ++ flat_map (fun i => pair_rows i na) (seq s (i0 - s)) ++ pair_rows i0 k0)
              (pair_files i0 (k0 - 1) (fold_left (fun fs i => pair_files i (length others) fs) (seq s (i0 - s)) (o_files o))), Throw).
Proof.
  induction ps as [|[a b] ps IH]; intros s o i0 k0 Hi Hk H HT; cbn [length] in Hi; [lia|].
  destruct (Nat.eq_dec i0 s) as [->|Hne].
  - rewrite Nat.sub_diag. cbn [seq flat_map fold_left app]. apply part_pair; auto. intros k Hk'. apply H; lia.
  - rewrite one_pair by (intros k Hk'; apply H; lia). rewrite (IH (S s) _ i0 k0); auto; try lia.
    + cbn [o_rows o_files]. replace (i0 - s) with (S (i0 - S s)) by lia. cbn [seq flat_map fold_left].
      now rewrite <- !app_assoc.
    + intros i k Hi' Hk' HH. apply (goes_cons (a, b)); [lia|]. apply H; auto. lia.
    + apply (throws_cons (a, b)) in HT; [exact HT|lia].
Qed.
Lemma rows_positions np : flat_map (fun i => pair_rows i na) (seq 0 np) = map (row_at zero N) (positions np na).
Proof.
  unfold positions, pair_rows. induction (seq 0 np) as [|i l IH]; [reflexivity|]. cbn [flat_map]. rewrite map_app, map_map, IH. reflexivity.
Qed.
Lemma positions_firstn np n i k : i < np -> k < n ->
  firstn (i * n + k) (positions np n) = positions i n ++ map (fun k => (i, k)) (seq 0 k).
Proof.
  intros Hi Hk. unfold positions. replace np with (i + S (np - S i)) by lia. rewrite seq_app, flat_map_app. cbn [seq flat_map]. rewrite Nat.add_0_l.
  assert (L : length (flat_map (fun i => map (fun k => (i, k)) (seq 0 n)) (seq 0 i)) = i * n).
  { clear. generalize 0 at 2 as s. induction i as [|i IH]; intros s; cbn [seq flat_map]; [reflexivity|].
    rewrite app_length, map_length, seq_length, IH. lia. }
  rewrite firstn_app, L. rewrite firstn_all2 by lia. f_equal.
  replace (i * n + k - i * n) with k by lia. rewrite firstn_app, map_length, seq_length.
  replace (k - n) with 0 by lia. cbn [firstn]. rewrite app_nil_r, firstn_map. f_equal.
  replace n with (k + (n - k)) by lia. rewrite seq_app, firstn_app, seq_length, Nat.sub_diag. cbn [firstn]. rewrite app_nil_r.
  apply firstn_all2. rewrite seq_length. lia.
Qed.
(** ** Files *)
Lemma contents_put (n m : nat) (b : buf D) fs : contents (put_file n b fs) m = if m =? n then Some b else contents fs m.
Proof.
  unfold contents, put_file. cbn [find]. cbn [fst]. rewrite (Nat.eqb_sym m n). destruct (Nat.eqb_spec n m) as [->|Hn]; [reflexivity|].
  induction fs as [|[x y] fs IH]; [reflexivity|]. cbn [filter fst]. destruct (Nat.eqb_spec x n) as [->|Hx]; cbn [negb].
  - cbn [find fst]. destruct (Nat.eqb_spec n m); [contradiction|]. exact IH.
  - cbn [find fst]. destruct (x =? m); [reflexivity|exact IH].
Qed.
Lemma contents_pair i n fs m : write_diff = true ->
  contents (pair_files i n fs) m = if (m =? i) && negb (n =? 0) then Some (d_buf (E i n)) else contents fs m.
Proof.
  intros W. unfold pair_files, puts. rewrite W. induction n as [|n IH].
  - cbn. now rewrite andb_false_r.
  - rewrite seq_S, map_app, fold_left_app. cbn [map fold_left]. rewrite contents_put, IH. cbn [Nat.eqb negb].
    rewrite andb_true_r. destruct (m =? i); [|reflexivity]. reflexivity.
Qed.
Lemma contents_all np fs m : write_diff = true ->
  contents (fold_left (fun fs i => pair_files i (length others) fs) (seq 0 np) fs) m =
    if (m <? np) && negb (length others =? 0) then Some (d_buf (E m (length others))) else contents fs m.
Proof.
  intros W. induction np as [|np IH]; [reflexivity|].
  rewrite seq_S, fold_left_app. cbn [fold_left]. rewrite contents_pair, IH by auto. rewrite Nat.add_0_l.
  destruct (Nat.eqb_spec m np) as [->|Hm].
  - replace (np <? S np) with true by (symmetry; apply Nat.ltb_lt; lia). destruct (length others =? 0); cbn [negb andb].
    + now rewrite andb_false_r.
    + reflexivity.
  - cbn [andb]. replace (m <? S np) with (m <? np) by (destruct (Nat.ltb_spec m np), (Nat.ltb_spec m (S np)); auto; lia). reflexivity.
Qed.
Lemma no_files_pair i n fs : write_diff = false -> pair_files i n fs = fs.
Proof. intros W. unfold pair_files, puts. now rewrite W. Qed.
Lemma no_files np fs : write_diff = false -> fold_left (fun fs i => pair_files i (length others) fs) (seq 0 np) fs = fs.
Proof. intros W. induction (seq 0 np) as [|i l IH] in fs |- *; cbn; [reflexivity|]. now rewrite no_files_pair, IH. Qed.
End Run.
End Table.

(** Settings with pairs (a_i, b_i) under the names "A" and "B". *)
Definition settings {D} (m : mset D) (la lb : list (dense D)) : Prop :=
  mp_get m "A"%string = Ok la /\ mp_get m "B"%string = Ok lb /\ length la = length lb.

Lemma bench_setup_ok {D A} (m : mset D) la lb (acts : list A) : settings m la lb -> la <> [] -> acts <> [] ->
  bench_setup m acts = Ok (combine la lb).
Proof.
  intros (H1 & H2 & H3) Ha Hx. unfold bench_setup. rewrite H1, H2. cbn [bind]. rewrite <- H3, Nat.eqb_refl.
  destruct la; [contradiction|]. destruct acts; [contradiction|]. reflexivity.
Qed.
Lemma nth_combine {A B} (la : list A) (lb : list B) i a b :
  nth_error (combine la lb) i = Some (a, b) -> nth_error la i = Some a /\ nth_error lb i = Some b.
Proof.
  revert lb i. induction la as [|x la IH]; intros [|y lb] [|i]; cbn; try discriminate.
  - intros [= <- <-]. auto.
  - apply IH.
Qed.
Lemma combine_nth' {A B} (la : list A) (lb : list B) i a b :
  nth_error la i = Some a -> nth_error lb i = Some b -> nth_error (combine la lb) i = Some (a, b).
Proof.
  revert lb i. induction la as [|x la IH]; intros [|y lb] [|i]; cbn; try discriminate.
  - now intros [= <-] [= <-].
  - apply IH.
Qed.

(** If no action fails on any pair, the table is complete: a row for every pair
    and action, in this order, with the norms of the difference between the
    action's result and the result of the first action. *)
Theorem C66_complete_table :
  forall (D A : Type) (zero : D) exec diff norms write_diff (m : mset D) la lb (acts : list A)
      (C : nat -> nat -> dense D) (E : nat -> nat -> dense D) (N : nat -> nat -> D * D),
    settings m la lb -> la <> [] -> acts <> [] ->
    (forall i k a b x, nth_error la i = Some a -> nth_error lb i = Some b -> nth_error acts k = Some x ->
       exec x a b = Ok (C i k) /\
       (1 <= k -> diff (C i k) (C i 0) = Ok (E i k) /\ norms (E i k) = Ok (N i k))) ->
    exists o, bench_table zero exec diff norms write_diff m acts = (o, Ok tt) /\
      o_rows o = map (row_at zero N) (positions (length la) (length acts)) /\
      (forall i, contents (o_files o) i =
         if write_diff && (i <? length la) && (2 <=? length acts) then Some (d_buf (E i (length acts - 1))) else None).
Proof.
  intros D A zero exec diff norms wd m la lb acts C E N HS Ha Hx H. unfold bench_table.
  rewrite (bench_setup_ok m la lb acts HS Ha Hx). destruct acts as [|first others]; [contradiction|]. destruct HS as (_ & _ & HL).
  assert (LC : length (combine la lb) = length la) by (rewrite combine_length; lia).
  rewrite (table_run zero exec diff norms wd first others (fun i => C i 0) E N).
  - eexists. split; [reflexivity|]. cbn [o_rows o_files app length]. rewrite rows_positions, LC. split; [reflexivity|].
    intros i. destruct wd.
    + rewrite contents_all by reflexivity. cbn [andb]. replace (S (length others) - 1) with (length others) by lia.
      replace (2 <=? S (length others)) with (negb (length others =? 0)); [reflexivity|]. destruct (length others); reflexivity.
    + rewrite no_files by reflexivity. reflexivity.
  - intros i k Hi Hk a b Hn. rewrite Nat.sub_0_r in Hn. apply nth_combine in Hn as [H1 H2]. destruct k as [|q].
    + apply (H i 0 a b first); auto.
    + intros x Hx'. destruct (H i (S q) a b x H1 H2 Hx') as (E1 & E2). destruct (E2 ltac:(lia)) as (E3 & E4).
      unfold measured. rewrite E1. cbn [bind]. rewrite E3. cbn [bind]. rewrite E4. reflexivity.
Qed.
Print Assumptions C66_complete_table.

(** If an action throws, the rows before it stay as they are, there are none
    after it and the program reports failure. *)
Theorem C66_stops_at_failure :
  forall (D A : Type) (zero : D) exec diff norms write_diff (m : mset D) la lb (acts : list A)
      (C : nat -> nat -> dense D) (E : nat -> nat -> dense D) (N : nat -> nat -> D * D) i0 k0 a0 b0 x0,
    settings m la lb ->
    nth_error la i0 = Some a0 -> nth_error lb i0 = Some b0 -> nth_error acts k0 = Some x0 ->
    exec x0 a0 b0 = Throw ->
    (forall i k a b x, nth_error la i = Some a -> nth_error lb i = Some b -> nth_error acts k = Some x ->
       i < i0 \/ i = i0 /\ k < k0 ->
       exec x a b = Ok (C i k) /\
       (1 <= k -> diff (C i k) (C i 0) = Ok (E i k) /\ norms (E i k) = Ok (N i k))) ->
    exists o, bench_table zero exec diff norms write_diff m acts = (o, Throw) /\
      o_rows o = map (row_at zero N) (firstn (i0 * length acts + k0) (positions (length la) (length acts))).
Proof.
  intros D A zero exec diff norms wd m la lb acts C E N i0 k0 a0 b0 x0 HS Ha0 Hb0 Hx0 HT H. unfold bench_table.
  assert (NA : la <> []) by (intros ->; destruct i0; discriminate).
  assert (NX : acts <> []) by (intros ->; destruct k0; discriminate).
  rewrite (bench_setup_ok m la lb acts HS) by assumption. destruct acts as [|first others]; [contradiction|]. destruct HS as (_ & _ & HL).
  assert (LC : length (combine la lb) = length la) by (rewrite combine_length; lia).
  assert (Hi0 : i0 < length la) by (apply nth_error_Some; congruence).
  assert (Hk0 : k0 < S (length others)) by (change (S (length others)) with (length (first :: others)); apply nth_error_Some; congruence).
  rewrite (table_stop zero exec diff norms wd first others (fun i => C i 0) E N _ 0 _ i0 k0); [|lia|exact Hk0| |].
  - eexists. split; [reflexivity|]. cbn [o_rows app length]. rewrite Nat.sub_0_r, rows_positions.
    rewrite positions_firstn by auto. rewrite map_app. f_equal. unfold pair_rows. now rewrite map_map.
  - intros i k _ Hk HH a b Hn. rewrite Nat.sub_0_r in Hn. apply nth_combine in Hn as [H1 H2]. destruct k as [|q].
    + apply (H i 0 a b first); auto. 
    + intros x Hx'. destruct (H i (S q) a b x H1 H2 Hx' HH) as (E1 & E2). destruct (E2 ltac:(lia)) as (E3 & E4).
      unfold measured. rewrite E1. cbn [bind]. rewrite E3. cbn [bind]. rewrite E4. reflexivity.
  - exists a0, b0. rewrite Nat.sub_0_r. split; [now apply combine_nth'|]. destruct k0 as [|q]; [cbn in Hx0; congruence|].
    exists x0. split; [exact Hx0|]. unfold measured. now rewrite HT.
Qed.
Print Assumptions C66_stops_at_failure.

From Verif Require Import Dyn_Spec Dyn_Proofs Check_Spec Norm_Spec Norm_Proofs Dense_Props Dyn_Props Norm_Props Tools_Props Bench_Props.

(** The reported norms are those of C59. *)
Lemma report_split {F D} (ar : arith F D) (nx : nops F D) dbg (C R : dense D) :
  bench_report ar nx dbg C R = do d <- diff_of ar dbg C R; norms_of ar nx d.
Proof. unfold bench_report, diff_of, norms_of, bin_leaf, rmap. destruct (d_binop _ _ _ _ _); reflexivity. Qed.

(** With exact arithmetic and operands whose elements are representable as
    float, every action the settings may name reproduces the first one: all norms
    in the table are 0. *)
Theorem C66_exact_table :
  forall (F D : Type) (ar : arith F D) (lb : libs F D) (nx : nops F D) (SD : Scalar D),
    nexact ar nx -> linear ar -> abs_pos ar -> sqrtD nx s0 = s0 -> exact_libs ar lb ->
  forall dbg runs write_diff (m : mset D) la lb' (acts : list action),
    settings m la lb' -> la <> [] -> acts <> [] -> 1 <= runs ->
    (forall i a b, nth_error la i = Some a -> nth_error lb' i = Some b ->
       exists r n c f g, is_mat a r n f /\ d_orient a = ColMajor /\ is_mat b n c g /\ d_orient b = ColMajor /\
         (forall i j, i < r -> j < n -> toD ar (toF ar (f i j)) = f i j) /\
         (forall i j, i < n -> j < c -> toD ar (toF ar (g i j)) = g i j) /\
         forall x, In x acts -> legal lb x a b r n c) ->
    exists o, bench_table s0 (execute ar lb dbg runs) (diff_of ar dbg) (norms_of ar nx) write_diff m acts = (o, Ok tt) /\
      o_rows o = map (fun '(i, k) => mkRow i k s0 s0) (positions (length la) (length acts)).
Proof.
  intros F D ar lb nx SD X L P S0 XL dbg runs wd m la lb' acts HS Ha Hx Hr HM.
  pose (dflt := d_default ColMajor : dense D).
  pose (get (r : res (dense D)) := match r with Ok d => d | _ => dflt end).
  pose (C := fun i k => match nth_error la i, nth_error lb' i, nth_error acts k with
     | Some a, Some b, Some x => get (execute ar lb dbg runs x a b) | _, _, _ => dflt end).
  destruct (C66_complete_table D action s0 (execute ar lb dbg runs) (diff_of ar dbg) (norms_of ar nx) wd m la lb' acts
     C (fun i k => get (diff_of ar dbg (C i k) (C i 0))) (fun _ _ => (s0, s0)) HS Ha Hx) as (o & Eo & Ro & _).
  - intros i k a b x Hia Hib Hkx.
    destruct (HM i a b Hia Hib) as (r & n & c & f & g & MA & OA & MB & OB & FA & FB & HL).
    assert (HX : forall k x, nth_error acts k = Some x ->
      execute ar lb dbg runs x a b = Ok (C i k) /\ is_mat (C i k) r c (mat_prod n f g) /\ d_orient (C i k) = ColMajor).
    { intros k' x' Hx'. unfold C. rewrite Hia, Hib, Hx'.
      destruct (C65_exact_product ar lb SD (ex_ring ar (nx_exact ar nx X)) XL dbg runs x' a b r n c f g) as (d & E & M); auto.
      { apply HL. eapply nth_error_In; eauto. }
      destruct (C65_action_result ar lb dbg runs x' a b r n c f g) as (d' & E' & _ & _ & O & _); auto.
      { apply HL. eapply nth_error_In; eauto. }
      rewrite E in E'. injection E' as <-. rewrite E. cbn [get]. auto. }
    destruct (HX k x Hkx) as (E1 & M1 & O1). split; [exact E1|]. intros Hk.
    destruct acts as [|x0 acts]; [contradiction|]. destruct (HX 0 x0 eq_refl) as (E2 & M2 & O2).
    destruct (C59_reported_error F D ar nx SD X L P S0 dbg (C i k) (C i 0) r c _ _ M1 M2 O1 O2) as (mx & ER & HMx).
    rewrite report_split in ER. destruct (diff_of ar dbg (C i k) (C i 0)) as [e| | | |]; try discriminate. cbn [bind get] in *.
    split; [reflexivity|]. rewrite ER. f_equal.
    pose proof (ex_ring ar (nx_exact ar nx X)) as RL.
    assert (Z0 : forall i j, ssub (mat_prod n f g i j) (mat_prod n f g i j) = s0) by (intros; rewrite r_sub; apply r_oppr).
    f_equal.
    + destruct HMx as [_ [[-> _]|(p & q & _ & _ & ->)]]; [reflexivity|]. rewrite Z0. apply (nx_abs0 ar nx X).
    + unfold norm2, sumsq, sum2.
      assert (SZ : forall k (h : nat -> D), (forall i, h i = s0) -> sum_n k h = s0).
      { induction k0 as [|k0 IH]; intros h Hh; cbn; [reflexivity|]. rewrite IH, Hh by auto. apply r_add0l. }
      rewrite SZ; [exact S0|]. intros p. apply SZ. intros q. rewrite Z0. apply (nx_sq0 ar nx X).
  - exists o. split; [exact Eo|]. rewrite Ro. apply map_ext. intros [i k]. unfold row_at. destruct (Nat.eqb_spec k 0); subst; reflexivity.
Qed.
Print Assumptions C66_exact_table.

(** Not one file per action: of the differences of one pair only the last one is
    kept. *)
Definition zlibs : libs Z Z := {|
  eigenF := zdot; eigenD := zdot; blazeF := zdot; blazeD := zdot; blazeFD := zdot; blazeDF := zdot;
  simdF := 2; simdD := 2; usableF := fun _ => true; usableD := fun _ => true |}.
Lemma zlibs_exact : exact_libs zar zlibs.
Proof. constructor; try reflexivity; intros dot [<-|[<-|[<-|[]]]] ps; reflexivity. Qed.
Definition demo_settings : mset Z := [("A"%string, [demoP; demoI2]); ("B"%string, [demoP; demoP])].
Definition all_actions : list action :=
  [ANativeDense; AOpenBLAS_d; AOpenBLAS_s; AMKL_d; AMKL_s; AEigen_d; AEigen_s; ABlaze_d; ABlaze_s; ABlaze_sd; ABlaze_ds].
Example C66_nonvacuous :
  nexact zar znx /\ linear zar /\ abs_pos zar /\ exact_libs zar zlibs /\ settings demo_settings [demoP; demoI2] [demoP; demoP] /\
  (forall i a b, nth_error [demoP; demoI2] i = Some a -> nth_error [demoP; demoP] i = Some b ->
     exists r n c f g, is_mat a r n f /\ d_orient a = ColMajor /\ is_mat b n c g /\ d_orient b = ColMajor /\
       (forall i j, i < r -> j < n -> toD zar (toF zar (f i j)) = f i j) /\
       (forall i j, i < n -> j < c -> toD zar (toF zar (g i j)) = g i j) /\
       forall x, In x all_actions -> legal zlibs x a b r n c) /\
  exists o, bench_table 0%Z (execute zar zlibs true 3) (diff_of zar true) (norms_of zar znx) true demo_settings all_actions = (o, Ok tt) /\
    length (o_rows o) = 22 /\ nth_error (o_rows o) 13 = Some (mkRow 1 2 0 0)%Z.
Proof.
  split; [exact znx_exact|]. split; [exact zar_linear|]. split; [apply (zar_kok NMax)|]. split; [exact zlibs_exact|].
  split; [repeat split|]. split; [|eexists; split; [vm_compute; reflexivity|split; reflexivity]].
  assert (LG : forall a b : dense Z, d_own a = true -> d_own b = true -> forall x, In x all_actions -> legal zlibs x a b 2 2 2).
  { intros a b Oa Ob x _. assert (gemm_legal 2 2 2) by (repeat split; unfold small_int; lia).
    assert (blaze_legal zlibs a b 2 2 2) by (unfold blaze_legal, accepts; repeat split; auto; lia).
    destruct x; cbn [legal]; auto. }
  assert (FP : forall i j, i < 2 -> j < 2 -> toD zar (toF zar (demoP_f i j)) = demoP_f i j)
    by (intros i j Hi Hj; destruct i as [|[|i]]; try lia; destruct j as [|[|j]]; try lia; reflexivity).
  assert (FI : forall i j, i < 2 -> j < 2 -> toD zar (toF zar (demoI2_f i j)) = demoI2_f i j)
    by (intros i j Hi Hj; destruct i as [|[|i]]; try lia; destruct j as [|[|j]]; try lia; reflexivity).
  intros i a b Ha Hb. destruct i as [|[|i]]; cbn in Ha, Hb.
  - injection Ha as <-. injection Hb as <-. exists 2, 2, 2, demoP_f, demoP_f. pose proof demoP_mat. repeat (split; auto).
  - injection Ha as <-. injection Hb as <-. exists 2, 2, 2, demoI2_f, demoP_f. pose proof demoP_mat. pose proof demoI2_mat. repeat (split; auto).
  - destruct i; discriminate.
Qed.
(** A 3 x 3 operand: with Blaze (SIMD width 2) in the list the table ends there. *)
Example C66_stop_nonvacuous :
  let d3 := mkDense (own_shape ColMajor 3 3) 9 (map Some [1; 0; 0; 0; 1; 0; 0; 0; 1]%Z) true in
  exists o, bench_table 0%Z (execute zar zlibs true 1) (diff_of zar true) (norms_of zar znx) true
      [("A"%string, [demoP; d3; demoP]); ("B"%string, [demoP; d3; demoP])] [AEigen_d; ABlaze_d; ANativeDense] = (o, Throw) /\
    o_rows o = [mkRow 0 0 0 0; mkRow 0 1 0 0; mkRow 0 2 0 0; mkRow 1 0 0 0]%Z.
Proof. eexists. split; vm_compute; reflexivity. Qed.

Theorem C66_one_file_per_action_refuted :
  ~ (forall (m : mset Z) la lb (acts : list action) (C E : nat -> nat -> dense Z) (N : nat -> nat -> Z * Z),
      settings m la lb -> la <> [] -> acts <> [] ->
      (forall i k a b x, nth_error la i = Some a -> nth_error lb i = Some b -> nth_error acts k = Some x ->
         execute zar zlibs true 1 x a b = Ok (C i k) /\
         (1 <= k -> diff_of zar true (C i k) (C i 0) = Ok (E i k) /\ norms_of zar znx (E i k) = Ok (N i k))) ->
      exists o, bench_table 0%Z (execute zar zlibs true 1) (diff_of zar true) (norms_of zar znx) true m acts = (o, Ok tt) /\
        length (o_files o) = length la * (length acts - 1)).
Proof.
  intros H. pose (C := fun (i k : nat) => match execute zar zlibs true 1 AEigen_d demoP demoP with Ok d => d | _ => demoP end).
  pose (E := fun (i k : nat) => match diff_of zar true (C i k) (C i 0) with Ok d => d | _ => demoP end).
  destruct (H [("A"%string, [demoP]); ("B"%string, [demoP])] [demoP] [demoP] [AEigen_d; AEigen_d; AEigen_d] C E (fun _ _ => (0, 0)%Z))
    as (o & Eo & Lo); [repeat split|discriminate|discriminate| |].
  - intros i k a b x Ha Hb Hx. destruct i as [|[|i]]; cbn in Ha, Hb; try discriminate. injection Ha as <-. injection Hb as <-.
    destruct k as [|[|[|k]]]; cbn in Hx; try (destruct k; discriminate); injection Hx as <-; (split; [reflexivity|intros _; split; vm_compute; reflexivity]).
  - vm_compute in Eo. injection Eo as <-. vm_compute in Lo. discriminate.
Qed.
Print Assumptions C66_one_file_per_action_refuted.
