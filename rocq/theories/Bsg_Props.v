(** Properties C39, C40, C41, C54 and the generated form of C53. *)
From Verif Require Import Base BaseLemmas Dense_Model Dense_Spec Dense_Proofs Dense2_Proofs
  Bsg_Model Bsg_Spec Bsg_Proofs Bsg2_Proofs Mult_Spec Dyn_Model Dyn_Spec Conv_Spec Dyn_Props Dense_Props Sparse_Props Mult_Props.

(** The exponents a matrix of orientation [o] shows when its memory is walked
    row by row with the number of columns as row length. *)
Definition walked {T} (bn : bnum T) (o : orient) (r c : nat) (f : nat -> nat -> T) (i j : nat) : T :=
  b_exp bn (match o with RowMajor => f i j | ColMajor => f ((i * c + j) mod r) ((i * c + j) / r) end).

Lemma detection_any {T} (bn : bnum T) (d : dense T) r c f : is_mat d r c f -> 1 <= r -> 1 <= c ->
  let e := walked bn (d_orient d) r c f in
  detection bn d = Ok (map (row_profile bn c e) (seq 0 (r - 1)), map (col_profile bn r e) (seq 0 (c - 1))).
Proof.
  intros [W V] Lr Lc e. pose proof V as (Hr & Hc & _). pose proof W as (_ & _ & Hl).
  set (g := fun k => match d_orient d with RowMajor => f (k / c) (k mod c) | ColMajor => f (k mod r) (k / r) end).
  assert (Hg : forall k, k < length (d_buf d) -> nth_error (d_buf d) k = Some (Some (g k))).
  { intros k Hk. rewrite Hl, Hr, Hc in Hk. unfold g.
    assert (A : forall i j, i < r -> j < c -> lin (d_orient d) r c i j = k -> nth_error (d_buf d) k = Some (Some (f i j))).
    { intros i j Hi Hj <-. rewrite <- Hr at 1. rewrite <- Hc at 1. rewrite <- own_addr_lin by assumption. now apply (view_cell d r c). }
    unfold lin in A. destruct (d_orient d); apply A.
    - apply Nat.div_lt_upper_bound; lia.
    - apply Nat.mod_upper_bound; lia.
    - rewrite Nat.mul_comm. symmetry. apply Nat.div_mod. lia.
    - apply Nat.mod_upper_bound; lia.
    - apply Nat.div_lt_upper_bound; lia.
    - rewrite Nat.mul_comm. symmetry. apply Nat.div_mod. lia. }
  eapply detection_spec; try eassumption.
  - apply frexp_copy_ok. exact Hg.
  - intros i j Hi Hj. rewrite nth_error_map_eq, nth_error_seq, Hl, Hr, Hc.
    destruct (Nat.ltb_spec (i * c + j) (r * c)); [|nia]. cbn [option_map Nat.add]. unfold e, walked, g.
    destruct (d_orient d); [|reflexivity]. do 4 f_equal.
    + rewrite Nat.div_add_l by lia. rewrite (Nat.div_small j c) by lia. lia.
    + rewrite Nat.add_comm, Nat.mod_add by lia. apply Nat.mod_small. lia.
Qed.

(** ** C41.  Row-major matrices: exactly the profile of neighbouring lines. *)
Theorem C41_profile_row_major :
  forall (T : Type) (bn : bnum T) (d : dense T) r c f,
    is_mat d r c f -> d_orient d = RowMajor -> 1 <= r -> 1 <= c ->
    let e i j := b_exp bn (f i j) in
    detection bn d = Ok (map (row_profile bn c e) (seq 0 (r - 1)), map (col_profile bn r e) (seq 0 (c - 1))).
Proof.
  intros T bn d r c f M O Lr Lc. pose proof (detection_any bn d r c f M Lr Lc) as H. rewrite O in H. exact H.
Qed.
Print Assumptions C41_profile_row_major.

(** Square column-major matrices: the two profiles are exchanged. *)
Theorem C41_profile_square_column_major :
  forall (T : Type) (bn : bnum T) (d : dense T) n f,
    is_mat d n n f -> d_orient d = ColMajor -> 1 <= n ->
    let e i j := b_exp bn (f j i) in
    detection bn d = Ok (map (row_profile bn n e) (seq 0 (n - 1)), map (col_profile bn n e) (seq 0 (n - 1))).
Proof.
  intros T bn d n f M O L. pose proof (detection_any bn d n n f M L L) as H. rewrite O in H. cbn zeta in *.
  rewrite H. do 2 f_equal; apply map_ext_in; intros k Hk; apply in_seq in Hk; unfold row_profile, col_profile;
    f_equal; apply map_ext_in; intros j Hj; apply in_seq in Hj; unfold walked;
    rewrite !Nat.div_add_l, !(Nat.add_comm (_ * n)), !Nat.mod_add, !Nat.mod_small, !Nat.div_small by lia;
    rewrite ?Nat.add_0_r; reflexivity.
Qed.
Print Assumptions C41_profile_square_column_major.

(** Every matrix with at least one row and column gets a profile (no undefined
    behaviour), of rows-1 and columns-1 values; without rows or columns the
    generator throws. *)
Theorem C41_profile_defined :
  forall (T : Type) (bn : bnum T) (d : dense T) r c f, is_mat d r c f ->
    (1 <= r -> 1 <= c -> exists p q, detection bn d = Ok (p, q) /\ length p = r - 1 /\ length q = c - 1) /\
    (r = 0 \/ c = 0 -> detection bn d = Throw).
Proof.
  intros T bn d r c f M. split.
  - intros Lr Lc. rewrite (detection_any bn d r c f M Lr Lc). eexists. eexists. split; [reflexivity|].
    now rewrite !map_length, !seq_length.
  - destruct M as [_ (Hr & Hc & _)]. intros H. unfold detection. rewrite Hr, Hc. destruct H as [-> | ->]; [reflexivity|].
    now rewrite orb_true_r.
Qed.
Print Assumptions C41_profile_defined.

Definition zbn : bnum Z := mkBnum Z 0%Z (fun x => x) Z.abs Z.sub Z.add Z.add Z.gtb Z.eqb.

(** Column-major matrices (the default orientation, the one the benchmark uses)
    get a wrong profile: 2 x 3 matrix with constant rows 0 and 1; the rows differ
    by 3, neighbouring columns not at all. *)
Definition cm23 : dense Z := mkDense (own_shape ColMajor 2 3) 6 [Some 0; Some 1; Some 0; Some 1; Some 0; Some 1]%Z true.
Theorem C41_column_major_refuted :
  exists (d : dense Z) f, is_mat d 2 3 f /\ d_orient d = ColMajor /\
    row_profile zbn 3 f 0 = 3%Z /\ col_profile zbn 2 f 0 = 0%Z /\ col_profile zbn 2 f 1 = 0%Z /\
    detection zbn d = Ok ([3], [2; 2])%Z.
Proof.
  exists cm23, (fun i _ => Z.of_nat i). split.
  - split; [repeat split; reflexivity|]. split; [reflexivity|]. split; [reflexivity|].
    intros [|[|i]] [|[|[|j]]] Hi Hj; try lia; reflexivity.
  - repeat split; vm_compute; reflexivity.
Qed.
Print Assumptions C41_column_major_refuted.

(** ** C39 *)
Lemma get_block_size_tiles {T} (bn : bnum T) mn mx detect idx sizes :
  Permutation idx (seq 0 (length detect)) -> get_block_size bn mn mx detect idx = Ok sizes ->
  tiles sizes (length detect + 1).
Proof.
  intros HP E. pose proof (get_block_size_spec bn mn mx detect idx HP) as H. rewrite E in H.
  destruct H as (b & large & -> & HI & _). eapply gaps_tiles. exact HI.
Qed.

(** Whatever the settings, the contents and the order among equal values. *)
Theorem C39_sizes_tile :
  forall (T : Type) (bn : bnum T) (d : dense T) r c f mn mx ri ci a b,
    is_mat d r c f -> 1 <= r -> 1 <= c ->
    Permutation ri (seq 0 (r - 1)) -> Permutation ci (seq 0 (c - 1)) ->
    generate bn mn mx d ri ci = Ok (a, b) -> tiles a r /\ tiles b c.
Proof.
  intros T bn d r c f mn mx ri ci a b M Lr Lc P1 P2 E. unfold generate in E. pose proof M as [_ (Hr & Hc & _)].
  rewrite Hr, Hc in E. destruct ((r <=? mx) && (c <=? mx)).
  - injection E as <- <-. split; split; cbn; try lia; repeat constructor; assumption.
  - rewrite (detection_any bn d r c f M Lr Lc) in E. cbn [bind fst snd] in E.
    apply bind_ok in E as (a' & E1 & E). apply bind_ok in E as (b' & E2 & E). injection E as <- <-.
    apply get_block_size_tiles in E1; [|now rewrite map_length, seq_length].
    apply get_block_size_tiles in E2; [|now rewrite map_length, seq_length].
    rewrite map_length, seq_length in E1, E2.
    replace (r - 1 + 1) with r in E1 by lia. replace (c - 1 + 1) with c in E2 by lia. auto.
Qed.
Print Assumptions C39_sizes_tile.

Lemma add_profiles_length {T} (bn : bnum T) a b k : add_profiles bn a b = Ok k -> length k = length a.
Proof.
  revert b k. induction a as [|x t IH]; intros [|y u] k E; cbn in E; try discriminate; try (injection E as <-; reflexivity).
  apply bind_ok in E as (t' & E1 & E). injection E as <-. cbn. f_equal. eapply IH. exact E1.
Qed.
Lemma add_profiles_ok {T} (bn : bnum T) a b : length a <= length b -> exists k, add_profiles bn a b = Ok k.
Proof.
  revert b. induction a as [|x t IH]; intros [|y u] L; cbn in *; try lia; eauto.
  destruct (IH u) as (k & ->); [lia|]. cbn. eauto.
Qed.

(** The sizes chosen for a product tile the rows of A, the common dimension and
    the columns of B. *)
Theorem C39_product_sizes_tile :
  forall (T : Type) (bn : bnum T) (A B : dense T) m n l fa fb mn mx ri ki ci a k b,
    is_mat A m n fa -> is_mat B n l fb -> 1 <= m -> 1 <= n -> 1 <= l ->
    Permutation ri (seq 0 (m - 1)) -> Permutation ki (seq 0 (n - 1)) -> Permutation ci (seq 0 (l - 1)) ->
    generate_mult bn mn mx A B ri ki ci = Ok (a, k, b) -> tiles a m /\ tiles k n /\ tiles b l.
Proof.
  intros T bn A B m n l fa fb mn mx ri ki ci a k b MA MB Lm Ln Ll P1 P2 P3 E. unfold generate_mult in E.
  rewrite (detection_any bn A m n fa MA Lm Ln) in E. cbn [bind] in E.
  rewrite (detection_any bn B n l fb MB Ln Ll) in E. cbn [bind fst snd] in E.
  apply bind_ok in E as (kk & Ek & E). apply bind_ok in E as (a' & E1 & E). apply bind_ok in E as (k' & E2 & E).
  apply bind_ok in E as (b' & E3 & E). injection E as <- <- <-.
  apply add_profiles_length in Ek. rewrite map_length, seq_length in Ek.
  apply get_block_size_tiles in E1; [|now rewrite map_length, seq_length].
  apply get_block_size_tiles in E2; [|now rewrite Ek].
  apply get_block_size_tiles in E3; [|now rewrite map_length, seq_length].
  rewrite map_length, seq_length in E1, E3. rewrite Ek in E2.
  replace (m - 1 + 1) with m in E1 by lia. replace (n - 1 + 1) with n in E2 by lia. replace (l - 1 + 1) with l in E3 by lia. auto.
Qed.
Print Assumptions C39_product_sizes_tile.

(** ** C40 *)
Lemma get_block_size_bounds {T} (bn : bnum T) mn mx detect idx sizes :
  Permutation idx (seq 0 (length detect)) -> get_block_size bn mn mx detect idx = Ok sizes ->
  forall s, In s sizes -> (mn <= s \/ sizes = [length detect + 1]) /\ (1 <= mx -> s <= mx).
Proof.
  intros HP E s Hs. pose proof (get_block_size_spec bn mn mx detect idx HP) as H. rewrite E in H.
  destruct H as (b & large & -> & HI & _ & HL). set (n := length detect) in *.
  pose proof HI as (S & I0 & I1 & Hle & Hmn & Hmx).
  apply (gaps_adj b s S) in Hs as (x & y & A & ->). split.
  - destruct (Hmn x y A) as [H|[-> ->]]; [now left|right].
    assert (forall z, In z b -> z = 0 \/ z = n + 1).
    { intros z Hz. destruct A as (_ & _ & _ & A4). destruct (A4 z Hz); [lia|]. apply Hle in Hz. lia. }
    destruct b as [|u [|v t]]; [destruct I0| |].
    + exfalso. destruct I0 as [I0|[]]. destruct I1 as [I1|[]]. lia.
    + inversion S as [|? ? S1 S2]; subst. rewrite Forall_forall in S2. inversion S1 as [|? ? S3 S4]; subst. rewrite Forall_forall in S4.
      pose proof (S2 v ltac:(now left)). pose proof (H u ltac:(now left)). pose proof (H v ltac:(right; now left)).
      destruct t as [|w t]; [change (gaps [u; v]) with [v - u]; f_equal; lia|].
      pose proof (S4 w ltac:(now left)). pose proof (H w ltac:(right; right; now left)). lia.
  - intros Hm. destruct (le_lt_dec (y - x) mx) as [|Hb]; [assumption|]. specialize (Hmx x y A Hb).
    destruct HL as [->|HL]; [destruct Hmx|].
    destruct A as (A1 & A2 & A3 & A4). pose proof (Hle y A2).
    assert (Hin : In x idx) by (eapply Permutation_in; [symmetry; exact HP|apply in_seq; fold n; lia]).
    apply In_nth_error in Hin as (j & Ej). apply HL in Ej. destruct (A4 _ Ej); lia.
Qed.

(** Whenever sizes are returned they respect the maximum (if it is not 0) and
    the minimum, unless the dimension stays in one piece. *)
Theorem C40_sizes_within_bounds :
  forall (T : Type) (bn : bnum T) (d : dense T) r c f mn mx ri ci a b,
    is_mat d r c f -> 1 <= r -> 1 <= c ->
    Permutation ri (seq 0 (r - 1)) -> Permutation ci (seq 0 (c - 1)) ->
    generate bn mn mx d ri ci = Ok (a, b) ->
    (forall s, In s a -> (mn <= s \/ a = [r]) /\ (1 <= mx -> s <= mx)) /\
    (forall s, In s b -> (mn <= s \/ b = [c]) /\ (1 <= mx -> s <= mx)).
Proof.
  intros T bn d r c f mn mx ri ci a b M Lr Lc P1 P2 E. unfold generate in E. pose proof M as [_ (Hr & Hc & _)].
  rewrite Hr, Hc in E. destruct ((r <=? mx) && (c <=? mx)) eqn:Em.
  - injection E as <- <-. apply andb_prop in Em as [E1 E2]. apply Nat.leb_le in E1, E2.
    split; intros s [<-|[]]; auto.
  - rewrite (detection_any bn d r c f M Lr Lc) in E. cbn [bind fst snd] in E.
    apply bind_ok in E as (a' & E1 & E). apply bind_ok in E as (b' & E2 & E). injection E as <- <-.
    match type of E1 with get_block_size _ _ _ ?p _ = _ =>
      pose proof (get_block_size_bounds bn mn mx p ri a' ltac:(now rewrite map_length, seq_length) E1) as H1 end.
    match type of E2 with get_block_size _ _ _ ?p _ = _ =>
      pose proof (get_block_size_bounds bn mn mx p ci b' ltac:(now rewrite map_length, seq_length) E2) as H2 end.
    rewrite map_length, seq_length in H1, H2.
    replace (r - 1 + 1) with r in H1 by lia. replace (c - 1 + 1) with c in H2 by lia. auto.
Qed.
Print Assumptions C40_sizes_within_bounds.

(** With a minimum of 0 or 1 sizes are always returned. *)
Theorem C40_small_minimum_always_succeeds :
  forall (T : Type) (bn : bnum T) (d : dense T) r c f mn mx ri ci,
    is_mat d r c f -> 1 <= r -> 1 <= c -> mn <= 1 ->
    Permutation ri (seq 0 (r - 1)) -> Permutation ci (seq 0 (c - 1)) ->
    exists a b, generate bn mn mx d ri ci = Ok (a, b).
Proof.
  intros T bn d r c f mn mx ri ci M Lr Lc Hm P1 P2. unfold generate. pose proof M as [_ (Hr & Hc & _)].
  rewrite Hr, Hc. destruct ((r <=? mx) && (c <=? mx)); [eauto|].
  rewrite (detection_any bn d r c f M Lr Lc). cbn [bind fst snd].
  assert (G : forall detect idx, Permutation idx (seq 0 (length detect)) -> exists s, get_block_size bn mn mx detect idx = Ok s).
  { intros detect idx HP. pose proof (get_block_size_spec bn mn mx detect idx HP) as H. cbn zeta in H.
    destruct (get_block_size bn mn mx detect idx) as [s| | |[]|]; try contradiction; [eauto|lia]. }
  destruct (G (map (row_profile bn c (walked bn (d_orient d) r c f)) (seq 0 (r - 1))) ri) as (a & ->); [now rewrite map_length, seq_length|].
  destruct (G (map (col_profile bn r (walked bn (d_orient d) r c f)) (seq 0 (c - 1))) ci) as (b & ->); [now rewrite map_length, seq_length|].
  cbn. eauto.
Qed.
Print Assumptions C40_small_minimum_always_succeeds.

(** Any minimum the constructor accepts: matrices all of whose elements have the
    same exponent (for example all-zero matrices) get sizes, if no dimension is
    shorter than twice the minimum. *)
Theorem C40_uniform_matrices_succeed :
  forall (T : Type) (bn : bnum T) (d : dense T) r c f mn mx ri ci x,
    is_mat d r c f -> 2 <= r -> 2 <= c -> 2 * mn <= mx -> 2 * mn <= r -> 2 * mn <= c -> eq_refl_ok bn ->
    (forall i j, i < r -> j < c -> b_exp bn (f i j) = x) ->
    (forall y, b_add bn y (b_abs bn (b_sub bn x x)) = y) ->
    Permutation ri (seq 0 (r - 1)) -> Permutation ci (seq 0 (c - 1)) ->
    exists a b, generate bn mn mx d ri ci = Ok (a, b).
Proof.
  intros T bn d r c f mn mx ri ci x M Lr Lc Hm Hr' Hc' Hrefl Hx H0 P1 P2. unfold generate. pose proof M as [_ (Hr & Hc & _)].
  rewrite Hr, Hc. destruct ((r <=? mx) && (c <=? mx)); [eauto|].
  rewrite (detection_any bn d r c f M ltac:(lia) ltac:(lia)). cbn [bind fst snd].
  set (e := walked bn (d_orient d) r c f).
  assert (He : forall i j, i < r -> j < c -> e i j = x).
  { intros i j Hi Hj. unfold e, walked. destruct (d_orient d); [now apply Hx|]. apply Hx.
    - apply Nat.mod_upper_bound. lia.
    - apply Nat.div_lt_upper_bound; nia. }
  assert (Hz : forall l y, (forall w, In w l -> w = b_abs bn (b_sub bn x x)) -> fold_left (b_add bn) l y = y).
  { induction l as [|w l IH]; intros y Hl; [reflexivity|]. cbn. rewrite (Hl w), H0 by (now left). apply IH. intros; apply Hl; now right. }
  assert (Hrow : forall k, k < r - 1 -> row_profile bn c e k = b_zero bn).
  { intros k Hk. unfold row_profile. apply Hz. intros w Hw. apply in_map_iff in Hw as (j & <- & Hj). apply in_seq in Hj.
    now rewrite !He by lia. }
  assert (Hcol : forall k, k < c - 1 -> col_profile bn r e k = b_zero bn).
  { intros k Hk. unfold col_profile. apply Hz. intros w Hw. apply in_map_iff in Hw as (j & <- & Hj). apply in_seq in Hj.
    now rewrite !He by lia. }
  assert (G : forall detect idx, Permutation idx (seq 0 (length detect)) -> detect <> [] -> 2 * mn <= length detect + 1 ->
    (forall v, In v detect -> v = b_zero bn) -> exists s, get_block_size bn mn mx detect idx = Ok s).
  { intros detect idx HP Hne Hl Hv. pose proof (get_block_size_spec bn mn mx detect idx HP) as H.
    assert (HU : forall u, get_block_size bn mn mx detect idx <> UB u).
    { apply uniform_no_ub; auto. intros v w H1 H2. rewrite (Hv v H1), (Hv w H2). apply Hrefl. }
    destruct (get_block_size bn mn mx detect idx) as [s| | |u|]; try contradiction; [eauto|]. exfalso. eapply HU. reflexivity. }
  destruct (G (map (row_profile bn c e) (seq 0 (r - 1))) ri) as (a & ->).
  { now rewrite map_length, seq_length. } { destruct r as [|[|r]]; try lia; cbn; discriminate. } { rewrite map_length, seq_length. lia. }
  { intros v Hv. apply in_map_iff in Hv as (k & <- & Hk). apply in_seq in Hk. apply Hrow. lia. }
  destruct (G (map (col_profile bn r e) (seq 0 (c - 1))) ci) as (b & ->).
  { now rewrite map_length, seq_length. } { destruct c as [|[|c]]; try lia; cbn; discriminate. } { rewrite map_length, seq_length. lia. }
  { intros v Hv. apply in_map_iff in Hv as (k & <- & Hk). apply in_seq in Hk. apply Hcol. lia. }
  cbn. eauto.
Qed.
Print Assumptions C40_uniform_matrices_succeed.

(** Every outcome is sizes or the use of the uninitialised [next_*] variables;
    the latter needs a minimum of at least 2.  In particular the loops terminate
    and all set iterators are valid. *)
Theorem C40_only_failure_is_no_candidate :
  forall (T : Type) (bn : bnum T) (d : dense T) r c f mn mx ri ci,
    is_mat d r c f -> 1 <= r -> 1 <= c ->
    Permutation ri (seq 0 (r - 1)) -> Permutation ci (seq 0 (c - 1)) ->
    (exists a b, generate bn mn mx d ri ci = Ok (a, b)) \/ (2 <= mn /\ generate bn mn mx d ri ci = UB UninitRead).
Proof.
  intros T bn d r c f mn mx ri ci M Lr Lc P1 P2. unfold generate. pose proof M as [_ (Hr & Hc & _)].
  rewrite Hr, Hc. destruct ((r <=? mx) && (c <=? mx)); [eauto|].
  rewrite (detection_any bn d r c f M Lr Lc). cbn [bind fst snd].
  assert (G : forall detect idx, Permutation idx (seq 0 (length detect)) ->
    (exists s, get_block_size bn mn mx detect idx = Ok s) \/ (2 <= mn /\ get_block_size bn mn mx detect idx = UB UninitRead)).
  { intros detect idx HP. pose proof (get_block_size_spec bn mn mx detect idx HP) as H. cbn zeta in H.
    destruct (get_block_size bn mn mx detect idx) as [s| | |[]|]; try contradiction; eauto. }
  destruct (G (map (row_profile bn c (walked bn (d_orient d) r c f)) (seq 0 (r - 1))) ri) as [(a & ->)|(L & ->)]; [now rewrite map_length, seq_length| |cbn; auto].
  destruct (G (map (col_profile bn r (walked bn (d_orient d) r c f)) (seq 0 (c - 1))) ci) as [(b & ->)|(L & ->)]; [now rewrite map_length, seq_length| |cbn; auto].
  cbn. eauto.
Qed.
Print Assumptions C40_only_failure_is_no_candidate.

(** The constructor accepts exactly the settings with 2*min <= max, as long as
    2*min does not wrap. *)
Theorem C40_constructor :
  forall mn mx, (mn < 2 ^ 63)%N ->
    bsg_new mn mx = if (2 * mn <=? mx)%N then Ok (N.to_nat mn, N.to_nat mx) else Throw.
Proof.
  intros mn mx H. unfold bsg_new. rewrite N.mod_small by (change (2 ^ 64)%N with (2 * 2 ^ 63)%N; lia).
  destruct (N.ltb_spec mx (2 * mn)), (N.leb_spec (2 * mn) mx); auto; lia.
Qed.
Print Assumptions C40_constructor.

Theorem C40_constructor_wrap_refuted :
  exists mn mx, bsg_new mn mx <> Throw /\ (mx < 2 * mn)%N.
Proof. exists (2 ^ 63)%N, 1%N. split; [|reflexivity]. unfold bsg_new. change ((2 * 2 ^ 63) mod 2 ^ 64)%N with 0%N. cbn [N.ltb N.compare]. discriminate. Qed.
Print Assumptions C40_constructor_wrap_refuted.

(** With the default settings (200, 1000) every matrix with more than 1000 rows
    and 2 to 399 columns runs into the uninitialised variables; here for any
    settings. *)
Theorem C40_short_dimension_refuted :
  forall (T : Type) (bn : bnum T) (d : dense T) r c f mn mx ri ci,
    is_mat d r c f -> mx < r -> 2 <= c < 2 * mn ->
    Permutation ri (seq 0 (r - 1)) -> Permutation ci (seq 0 (c - 1)) ->
    generate bn mn mx d ri ci = UB UninitRead.
Proof.
  intros T bn d r c f mn mx ri ci M Lr Lc P1 P2.
  destruct (C40_only_failure_is_no_candidate T bn d r c f mn mx ri ci M ltac:(lia) ltac:(lia) P1 P2) as [(a & b & E)|[_ E]]; [|assumption].
  exfalso. unfold generate in E. pose proof M as [_ (Hr & Hc & _)]. rewrite Hr, Hc in E.
  destruct (Nat.leb_spec r mx); [lia|]. cbn [andb] in E. rewrite (detection_any bn d r c f M ltac:(lia) ltac:(lia)) in E. cbn [bind fst snd] in E.
  apply bind_ok in E as (a' & _ & E). apply bind_ok in E as (b' & E & _).
  rewrite short_ub in E; [discriminate| | |].
  - now rewrite map_length, seq_length.
  - destruct c as [|[|c]]; try lia; cbn; discriminate.
  - rewrite map_length, seq_length. lia.
Qed.
Print Assumptions C40_short_dimension_refuted.

(** Square matrices do not help: the largest change of the profile next to the
    matrix edge (here between the first two of 5 lines, limits 2 and 4). *)
Definition edge5 : dense Z :=
  mkDense (own_shape RowMajor 5 5) 25 (map (fun k => Some (if Nat.ltb k 5 then 8 else 0)%Z) (seq 0 25)) true.
Theorem C40_peak_at_edge_refuted :
  exists (d : dense Z) f, is_mat d 5 5 f /\ bsg_new 2 4 = Ok (2, 4) /\
    sorted_order zbn [40; 0; 0; 0]%Z [0; 1; 2; 3] /\
    detection zbn d = Ok ([40; 0; 0; 0], [0; 0; 0; 0])%Z /\
    generate zbn 2 4 d [0; 1; 2; 3] [0; 1; 2; 3] = UB UninitRead.
Proof.
  exists edge5, (fun i _ => if Nat.eqb i 0 then 8 else 0)%Z. split.
  - split; [repeat split; reflexivity|]. split; [reflexivity|]. split; [reflexivity|].
    intros [|[|[|[|[|i]]]]] [|[|[|[|[|j]]]]] Hi Hj; try lia; reflexivity.
  - split; [reflexivity|]. split.
    + split; [reflexivity|]. intros a b i j x y L.
      destruct a as [|[|[|[|a]]]]; cbn [nth_error]; intros Ea; try discriminate; [| | | |destruct a; discriminate];
      (destruct b as [|[|[|[|b]]]]; cbn [nth_error]; intros Eb; try discriminate; try lia; [..|destruct b; discriminate]);
      injection Ea as <-; injection Eb as <-; cbn; intros Ex Ey; injection Ex as <-; injection Ey as <-; reflexivity.
    + split; vm_compute; reflexivity.
Qed.
Print Assumptions C40_peak_at_edge_refuted.

(** ** C54.  Cuts are placed at the largest profile values: no uncut position has
    a larger value than a cut one. *)
Theorem C54_cuts_at_largest_changes :
  forall (T : Type) (bn : bnum T) mn mx detect idx sizes, eq_consistent bn -> eq_refl_ok bn ->
    sorted_order bn detect idx -> get_block_size bn mn mx detect idx = Ok sizes ->
    forall p q x y, nth_error detect p = Some x -> nth_error detect q = Some y ->
      cut_at sizes p -> ~ cut_at sizes q -> b_gt bn y x = false.
Proof.
  intros T bn mn mx detect idx sizes HC HR [HP HS] E p q x y Ex Ey Cp Cq.
  pose proof (get_block_size_spec bn mn mx detect idx HP) as H. rewrite E in H.
  destruct H as (b & large & -> & HI & (i0 & i1 & Li & F1 & F2 & F3) & _). set (n := length detect) in *.
  assert (Lp : p < n) by (apply nth_error_Some; congruence). assert (Lq : q < n) by (apply nth_error_Some; congruence).
  apply (cut_at_border n mn mx b large p HI Lp) in Cp.
  assert (Cq' : ~ In (q + 1) b) by (intros H; apply Cq; now apply (cut_at_border n mn mx b large q HI Lq)).
  apply F2 in Cp as [Cp|[Cp|(j & k & Lj & Ej & Ek)]]; [lia|lia|]. assert (k = p) by lia. subst k.
  assert (Hin : In q idx) by (eapply Permutation_in; [symmetry; exact HP|apply in_seq; fold n; lia]).
  apply In_nth_error in Hin as (j' & Ej').
  assert (Lj' : i0 <= j') by (destruct (le_lt_dec i0 j'); [assumption|]; exfalso; apply Cq'; eapply F1; eassumption).
  destruct (le_lt_dec j' j) as [Hjj|Hjj].
  - destruct (F3 j p x j' q y ltac:(lia) ltac:(lia) Ej Ex Ej' Ey) as (v & H1 & H2).
    apply (HC v); [destruct H2 as [->|H2]; auto|destruct H1 as [->|H1]; auto].
  - eapply HS; eassumption.
Qed.
Print Assumptions C54_cuts_at_largest_changes.

(** For whole matrices (row-major, see C41): the sizes of a single matrix and of a
    product.  The common dimension of a product is cut by the changes between the
    columns of A plus those between the rows of B. *)
Definition cuts_at_largest {T} (bn : bnum T) (sizes : list nat) (n : nat) (prof : nat -> T) : Prop :=
  forall p q, p < n -> q < n -> cut_at sizes p -> ~ cut_at sizes q -> b_gt bn (prof q) (prof p) = false.
Lemma nth_error_map_seq {A} (f : nat -> A) n p : p < n -> nth_error (map f (seq 0 n)) p = Some (f p).
Proof.
  intros H. rewrite nth_error_map. assert (E : nth_error (seq 0 n) p = Some p) by (rewrite (nth_error_nth' _ 0) by (now rewrite seq_length); now rewrite seq_nth).
  now rewrite E.
Qed.
Lemma cuts_map {T} (bn : bnum T) mn mx n prof idx sizes : eq_consistent bn -> eq_refl_ok bn ->
  sorted_order bn (map prof (seq 0 n)) idx -> get_block_size bn mn mx (map prof (seq 0 n)) idx = Ok sizes -> cuts_at_largest bn sizes n prof.
Proof.
  intros HC HR S E p q Lp Lq Cp Cq.
  exact (C54_cuts_at_largest_changes T bn mn mx _ idx sizes HC HR S E p q _ _ (nth_error_map_seq prof n p Lp) (nth_error_map_seq prof n q Lq) Cp Cq).
Qed.
Lemma add_profiles_map {T} (bn : bnum T) f g n : forall a, add_profiles bn (map f (seq a n)) (map g (seq a n)) = Ok (map (fun k => b_szadd bn (f k) (g k)) (seq a n)).
Proof. induction n as [|n IH]; intros a; [reflexivity|]. cbn [seq map add_profiles]. now rewrite IH. Qed.

Theorem C54_matrix_cuts :
  forall (T : Type) (bn : bnum T) (d : dense T) r c f mn mx ri ci a b, eq_consistent bn -> eq_refl_ok bn ->
    is_mat d r c f -> d_orient d = RowMajor -> 1 <= r -> 1 <= c -> mx < r \/ mx < c ->
    let e i j := b_exp bn (f i j) in
    sorted_order bn (map (row_profile bn c e) (seq 0 (r - 1))) ri ->
    sorted_order bn (map (col_profile bn r e) (seq 0 (c - 1))) ci ->
    generate bn mn mx d ri ci = Ok (a, b) ->
    cuts_at_largest bn a (r - 1) (row_profile bn c e) /\ cuts_at_largest bn b (c - 1) (col_profile bn r e).
Proof.
  intros T bn d r c f mn mx ri ci a b HC HR M O Lr Lc Lx e S1 S2 E. unfold generate in E. pose proof M as [_ (Hr & Hc & _)].
  rewrite Hr, Hc in E. assert (Q : (r <=? mx) && (c <=? mx) = false) by (apply andb_false_iff; rewrite !Nat.leb_gt; exact Lx).
  rewrite Q, (C41_profile_row_major T bn d r c f M O Lr Lc) in E. cbn [bind fst snd] in E.
  apply bind_ok in E as (a' & E1 & E). apply bind_ok in E as (b' & E2 & E). injection E as <- <-.
  split; eapply cuts_map; eauto.
Qed.
Print Assumptions C54_matrix_cuts.

Theorem C54_product_cuts :
  forall (T : Type) (bn : bnum T) (A B : dense T) m n l fa fb mn mx ri ki ci a k b, eq_consistent bn -> eq_refl_ok bn ->
    is_mat A m n fa -> is_mat B n l fb -> d_orient A = RowMajor -> d_orient B = RowMajor -> 1 <= m -> 1 <= n -> 1 <= l ->
    let ea i j := b_exp bn (fa i j) in let eb i j := b_exp bn (fb i j) in
    let inner p := b_szadd bn (col_profile bn m ea p) (row_profile bn l eb p) in
    sorted_order bn (map (row_profile bn n ea) (seq 0 (m - 1))) ri ->
    sorted_order bn (map inner (seq 0 (n - 1))) ki ->
    sorted_order bn (map (col_profile bn n eb) (seq 0 (l - 1))) ci ->
    generate_mult bn mn mx A B ri ki ci = Ok (a, k, b) ->
    cuts_at_largest bn a (m - 1) (row_profile bn n ea) /\ cuts_at_largest bn k (n - 1) inner /\
    cuts_at_largest bn b (l - 1) (col_profile bn n eb).
Proof.
  intros T bn A B m n l fa fb mn mx ri ki ci a k b HC HR MA MB OA OB Lm Ln Ll ea eb inner S1 S2 S3 E. unfold generate_mult in E.
  rewrite (C41_profile_row_major T bn A m n fa MA OA Lm Ln) in E. cbn [bind] in E.
  rewrite (C41_profile_row_major T bn B n l fb MB OB Ln Ll) in E. cbn [bind fst snd] in E.
  rewrite add_profiles_map in E. cbn [bind] in E.
  apply bind_ok in E as (a' & E1 & E). apply bind_ok in E as (k' & E2 & E). apply bind_ok in E as (b' & E3 & E). injection E as <- <- <-.
  split; [|split]; eapply cuts_map; eauto.
Qed.
Print Assumptions C54_product_cuts.

(** A is constant and B has one jump between its rows: the inner dimension is cut there. *)
Example C54_product_nonvacuous :
  let A := mkDense (own_shape RowMajor 2 4) 8 (repeat (Some 1%Z) 8) true in
  let B := mkDense (own_shape RowMajor 4 1) 4 [Some 1; Some 1; Some 1; Some 9]%Z true in
  is_mat A 2 4 (fun _ _ => 1%Z) /\ is_mat B 4 1 (fun i _ => if Nat.eqb i 3 then 9 else 1)%Z /\
  sorted_order zbn (map (fun p => if Nat.eqb p 2 then 8 else 0)%Z (seq 0 3)) [2; 0; 1] /\
  generate_mult zbn 1 3 A B [0] [2; 0; 1] [] = Ok ([1; 1], [3; 1], [1]).
Proof.
  cbn zeta. split; [|split; [|split]].
  - split; [repeat split; reflexivity|]. split; [reflexivity|]. split; [reflexivity|].
    intros [|[|i]] [|[|[|[|j]]]] Hi Hj; try lia; reflexivity.
  - split; [repeat split; reflexivity|]. split; [reflexivity|]. split; [reflexivity|].
    intros [|[|[|[|i]]]] [|j] Hi Hj; try lia; reflexivity.
  - split; [cbn; apply perm_trans with [0; 2; 1]; [apply perm_swap|apply perm_skip, perm_swap]|]. intros a b i j x y L.
    destruct a as [|[|[|a]]]; cbn [nth_error]; intros Ea; try discriminate; [| | |destruct a; discriminate];
      (destruct b as [|[|[|b]]]; cbn [nth_error]; intros Eb; try discriminate; try lia; [..|destruct b; discriminate]);
      injection Ea as <-; injection Eb as <-; cbn; intros Ex Ey; injection Ex as <-; injection Ey as <-; reflexivity.
  - vm_compute. reflexivity.
Qed.

(** 7 lines, limits 1 and 4, change after line 3: one cut there, one tie cut. *)
Example C39_C40_C54_nonvacuous :
  eq_consistent zbn /\ eq_refl_ok zbn /\
  get_block_size zbn 1 3 [1; 0; 9; 2; 2; 0]%Z [2; 4; 3; 0; 1; 5] = Ok [3; 2; 2] /\
  get_block_size zbn 0 2 [0; 1; 0]%Z [1; 0; 2] = Ok [2; 2] /\
  get_block_size zbn 2 5 [0;0;0;0;15;0;0;0;0;15;0;0;0;0;0;0;0;0;0]%Z
    [4;9;0;1;2;3;5;6;7;8;10;11;12;13;14;15;16;17;18] = Ok [5; 5; 5; 5] /\
  generate zbn 1 2 cm23 [0] [0; 1] = Ok ([1; 1], [1; 2]).
Proof.
  split; [intros v x y; cbn; rewrite !Z.eqb_eq; intros <- <-; rewrite Z.gtb_ltb; apply Z.ltb_irrefl|]. 
  split; [intros v; apply Z.eqb_refl|]. repeat split; vm_compute; reflexivity.
Qed.

(** ** C53 with generated sizes: whatever sizes the generator returns, cutting,
    converting, multiplying block-wise and reassembling gives the product. *)
Theorem C53_pipeline_with_generated_sizes :
  forall (F D : Type) (ar : arith F D) (SD : Scalar D) (bn : bnum D), exact ar ->
  forall ready p exc dbg th (A B : dense D) m n l fa fb mn mx ri ki ci rl nl cl (TA TB : nat -> nat -> mty),
    (forall t, In t type_list -> ready t = true) -> float_exact ar p ->
    is_mat A m n fa -> d_orient A = ColMajor -> (Z.of_nat (length (d_buf A)) < 2 ^ 63)%Z ->
    is_mat B n l fb -> d_orient B = ColMajor -> (Z.of_nat (length (d_buf B)) < 2 ^ 63)%Z ->
    1 <= m -> 1 <= n -> 1 <= l ->
    Permutation ri (seq 0 (m - 1)) -> Permutation ki (seq 0 (n - 1)) -> Permutation ci (seq 0 (l - 1)) ->
    generate_mult bn mn mx A B ri ki ci = Ok (rl, nl, cl) ->
    (forall I K J, I < length rl -> K < length nl -> J < length cl -> fits p (nth I rl 0) (nth K nl 0) (nth J cl 0)) ->
    valid_thr ar th -> zero_limits_agree th ->
    (forall I K, I < length rl -> K < length nl ->
       first_of (respects ar th (nth I rl 0) (nth K nl 0) (fun i j => fa (offs rl I + i) (offs nl K + j))) type_list (TA I K) /\
       forall i j, i < nth I rl 0 -> j < nth K nl 0 ->
         stored_as ar th true (TA I K) (fa (offs rl I + i) (offs nl K + j)) = fa (offs rl I + i) (offs nl K + j)) ->
    (forall K J, K < length nl -> J < length cl ->
       first_of (respects ar th (nth K nl 0) (nth J cl 0) (fun i j => fb (offs nl K + i) (offs cl J + j))) type_list (TB K J) /\
       forall i j, i < nth K nl 0 -> j < nth J cl 0 ->
         stored_as ar th true (TB K J) (fb (offs nl K + i) (offs cl J + j)) = fb (offs nl K + i) (offs cl J + j)) ->
    exists a b c d, cut ar exc dbg th A rl nl = Ok a /\ cut ar exc dbg th B nl cl = Ok b /\
      mul_blocked ar ready p dbg a b = Ok c /\ dense_of_blocked ar exc dbg c = Ok d /\
      is_mat d m l (mat_prod n fa fb).
Proof.
  intros F D ar SD bn X ready p exc dbg th A B m n l fa fb mn mx ri ki ci rl nl cl TA TB Hr He MA OA LA MB OB LB Lm Ln Ll P1 P2 P3 G Hf HT ZA HA HB.
  destruct (C39_product_sizes_tile D bn A B m n l fa fb mn mx ri ki ci rl nl cl MA MB Lm Ln Ll P1 P2 P3 G) as (T1 & T2 & T3).
  exact (C53_pipeline F D ar SD X ready p exc dbg th A B m n l fa fb rl nl cl TA TB Hr He Hf MA OA LA MB OB LB T1 T2 T3 Ln HT ZA HA HB).
Qed.
Print Assumptions C53_pipeline_with_generated_sizes.

(** The pipeline run on the matrices of C53_nonvacuous with sizes chosen by the
    generator (limits 1 and 2). *)
Example C53_generated_nonvacuous :
  is_mat demoC 2 3 demoC_f /\ is_mat demoB 3 2 demoB_f /\
  generate_mult zbn 1 2 demoC demoB [0] [0; 1] [0] = Ok ([1; 1], [1; 2], [1; 1]) /\
  exists a b c d, cut zar true true zthr demoC [1; 1] [1; 2] = Ok a /\ cut zar true true zthr demoB [1; 2] [1; 1] = Ok b /\
    mul_blocked zar (fun _ => true) PNative true a b = Ok c /\ dense_of_blocked zar true true c = Ok d /\
    dget true d 1 1 = Ok 17%Z.
Proof.
  split; [exact demoC_mat|]. split; [exact demoB_mat|]. split; [vm_compute; reflexivity|].
  eexists; eexists; eexists; eexists. split; [vm_compute; reflexivity|]. split; [vm_compute; reflexivity|].
  split; [vm_compute; reflexivity|]. split; vm_compute; reflexivity.
Qed.
