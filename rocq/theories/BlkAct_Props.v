(** C68: the benchmark's block-wise action. *)
From Verif Require Import Base BaseLemmas Dense_Model Dense_Spec Dense_Proofs Dense2_Proofs
  Bsg_Model Bsg_Spec Bsg_Proofs Bsg2_Proofs Mult_Spec Dyn_Model Dyn_Spec Conv_Spec Dyn_Props Dense_Props Sparse_Props Mult_Props
  Bsg_Props Bench_Model BlkAct_Model.
Require Import Permutation.

(** An order std::sort may return for [n] positions. *)
Definition order_of (l : list nat) (n : nat) : Prop := Permutation l (seq 0 n).

(** Every block that can be cut from [f] (an [r] x [c] matrix) gets a type, and
    storing its elements as that type changes none of them. *)
Definition lossless {F D} (ar : arith F D) (th : threshold D) (r c : nat) (f : nat -> nat -> D) : Prop :=
  forall ro co nr nc, 1 <= nr -> 1 <= nc -> ro + nr <= r -> co + nc <= c ->
    exists t, first_of (respects ar th nr nc (fun i j => f (ro + i) (co + j))) type_list t /\
      forall i j, i < nr -> j < nc -> stored_as ar th true t (f (ro + i) (co + j)) = f (ro + i) (co + j).

Lemma fin_choice2 {T} (t0 : T) n m (P : nat -> nat -> T -> Prop) :
  (forall i j, i < n -> j < m -> exists x, P i j x) -> exists f, forall i j, i < n -> j < m -> P i j (f i j).
Proof.
  assert (C1 : forall (T : Type) (t0 : T) n (P : nat -> T -> Prop),
    (forall i, i < n -> exists x, P i x) -> exists f, forall i, i < n -> P i (f i)).
  { clear. intros T t0 n P. induction n as [|n IH]; intros H; [exists (fun _ => t0); intros; lia|].
    destruct IH as [f Hf]; [intros; apply H; lia|]. destruct (H n) as [x Hx]; [lia|].
    exists (fun i => if (i =? n) then x else f i). intros i Hi. destruct (Nat.eqb_spec i n) as [-> |]; [auto|]. apply Hf. lia. }
  intros H. destruct (C1 _ (fun _ => t0) n (fun i f => forall j, j < m -> P i j (f j))) as [f Hf].
  - intros i Hi. apply C1; auto.
  - exists f. intros; now apply Hf.
Qed.

Lemma bench_const {S} runs (g : res S) (s v : S) : 1 <= runs -> g = Ok v -> bench_it runs (fun _ => g) s = Ok v.
Proof.
  intros H ->. unfold bench_it. destruct runs as [|runs]; [lia|]. clear H. revert s.
  induction runs as [|runs IH]; intros s; [reflexivity|].
  rewrite forM_S, IH. reflexivity.
Qed.

Lemma bench_fail {S} runs (g : res S) (s : S) : 1 <= runs -> (forall v, g <> Ok v) -> bench_it runs (fun _ => g) s = g.
Proof.
  intros H HG. unfold bench_it, forM. destruct runs as [|runs]; [lia|]. cbn [seq foldM].
  destruct g; [|reflexivity..]. exfalso. eapply HG. reflexivity.
Qed.

(** The limits are ints; they arrive unchanged unless they are negative. *)
Lemma to_size_pos x : (0 <= x < 2 ^ 31)%Z -> to_size x = Z.to_N x.
Proof. intros H. unfold to_size. rewrite Z.mod_small; [reflexivity|]. assert (2 ^ 31 < 2 ^ 64)%Z by reflexivity. lia. Qed.
Lemma limits_ok mn mx : (0 <= mn)%Z -> (2 * mn <= mx)%Z -> (mx < 2 ^ 31)%Z ->
  bsg_new (to_size mn) (to_size mx) = Ok (Z.to_nat mn, Z.to_nat mx).
Proof.
  intros H1 H2 H3. rewrite !to_size_pos by lia. unfold bsg_new.
  assert (E : (2 ^ 64 = 2 * 2 ^ 63)%N) by reflexivity. assert (E2 : (Z.of_N (2 ^ 63) = 2 ^ 63)%Z) by reflexivity.
  assert (E3 : (2 ^ 31 < 2 ^ 63)%Z) by reflexivity.
  rewrite N.mod_small by lia.
  destruct (N.ltb_spec (Z.to_N mx) (2 * Z.to_N mn)); [lia|]. now rewrite !Z_N_nat.
Qed.

Section Sizes.
Context {D : Type} (bn : bnum D).
Context (A B : dense D) (m n l : nat) (fa fb : nat -> nat -> D) (ri ki ci : list nat).
Hypotheses (MA : is_mat A m n fa) (MB : is_mat B n l fb) (Lm : 1 <= m) (Ln : 1 <= n) (Ll : 1 <= l).
Hypotheses (P1 : order_of ri (m - 1)) (P2 : order_of ki (n - 1)) (P3 : order_of ci (l - 1)).

Lemma add_profiles_total (a b : list D) : length a = length b -> exists k, add_profiles bn a b = Ok k.
Proof.
  revert b. induction a as [|x a IH]; intros [|y b]; cbn; try discriminate; eauto. intros [= E].
  destruct (IH b E) as (k & ->). cbn. eauto.
Qed.
Lemma sizes_cases mn mx :
  (exists rl nl cl, generate_mult bn mn mx A B ri ki ci = Ok (rl, nl, cl)) \/
  (2 <= mn /\ generate_mult bn mn mx A B ri ki ci = UB UninitRead).
Proof.
  unfold generate_mult. rewrite (detection_any bn A m n fa MA Lm Ln). cbn [bind].
  rewrite (detection_any bn B n l fb MB Ln Ll). cbn [bind fst snd].
  match goal with |- context [add_profiles bn ?u ?v] => destruct (add_profiles_total u v) as (k & Ek); [now rewrite !map_length, !seq_length|]; rewrite Ek end.
  cbn [bind]. apply add_profiles_length in Ek. rewrite map_length, seq_length in Ek.
  assert (G : forall detect idx, Permutation idx (seq 0 (length detect)) ->
    (exists s, get_block_size bn mn mx detect idx = Ok s) \/ (2 <= mn /\ get_block_size bn mn mx detect idx = UB UninitRead)).
  { intros detect idx HP. pose proof (get_block_size_spec bn mn mx detect idx HP) as H. cbn zeta in H.
    destruct (get_block_size bn mn mx detect idx) as [s| | |[]|]; try contradiction; eauto. }
  match goal with |- context [get_block_size bn mn mx ?u ri] => destruct (G u ri) as [(a & ->)|(L & ->)]; [now rewrite map_length, seq_length| |cbn; auto] end.
  destruct (G k ki) as [(b & ->)|(L & ->)]; [now rewrite Ek| |cbn; auto].
  match goal with |- context [get_block_size bn mn mx ?u ci] => destruct (G u ci) as [(c & ->)|(L & ->)]; [now rewrite map_length, seq_length| |cbn; auto] end.
  cbn. left. eauto.
Qed.
Lemma sizes_short mn mx k : In k [m; n; l] -> 2 <= k < 2 * mn -> generate_mult bn mn mx A B ri ki ci = UB UninitRead.
Proof.
  intros Hk Hs. destruct (sizes_cases mn mx) as [(rl & nl & cl & E)|[_ E]]; [exfalso|exact E].
  unfold generate_mult in E. rewrite (detection_any bn A m n fa MA Lm Ln) in E. cbn [bind] in E.
  rewrite (detection_any bn B n l fb MB Ln Ll) in E. cbn [bind fst snd] in E.
  apply bind_ok in E as (kk & Ek & E). apply bind_ok in E as (a' & E1 & E). apply bind_ok in E as (k' & E2 & E).
  apply bind_ok in E as (b' & E3 & E). apply add_profiles_length in Ek. rewrite map_length, seq_length in Ek.
  assert (Z : forall d idx s, get_block_size bn mn mx d idx = Ok s -> Permutation idx (seq 0 (length d)) -> length d = k - 1 -> False).
  { intros d idx s Ed HP HL. rewrite short_ub in Ed; [discriminate|exact HP| |lia]. intros ->. cbn in HL. lia. }
  destruct Hk as [<-|[<-|[<-|[]]]].
  - eapply Z; [exact E1| |]; rewrite map_length, seq_length; auto.
  - eapply Z; [exact E2| |]; rewrite Ek; auto.
  - eapply Z; [exact E3| |]; rewrite map_length, seq_length; auto.
Qed.
End Sizes.

Lemma fits_blocks p m n l rl nl cl : fits p m n l -> partition rl m -> partition nl n -> partition cl l ->
  forall I K J, I < length rl -> K < length nl -> J < length cl -> fits p (nth I rl 0) (nth K nl 0) (nth J cl 0).
Proof.
  intros Hf H1 H2 H3 I K J HI HK HJ.
  destruct (offs_block rl m I H1 HI), (offs_block nl n K H2 HK), (offs_block cl l J H3 HJ).
  assert (HM : nth I rl 0 * nth K nl 0 <= m * n) by (apply Nat.mul_le_mono; lia).
  destruct p; cbn [fits] in *; auto; repeat split; lia.
Qed.

Section Action.
Context {F D : Type} (ar : arith F D) (bn : bnum D) (ready : mty -> bool) (p : policy) (exc dbg : bool) (th : threshold D).
Notation execute elide := (execute_block ar bn ready p exc dbg elide th).

(** What the action does once the sizes are known. *)
Lemma execute_sizes mn mx ri ki ci runs (A B : dense D) rl nl cl a b c d : 1 <= runs ->
  block_sizes bn mn mx A B ri ki ci = Ok (rl, nl, cl) ->
  cut ar exc dbg th A rl nl = Ok a -> cut ar exc dbg th B nl cl = Ok b -> mul_blocked ar ready p dbg a b = Ok c ->
  dense_of_blocked ar exc dbg c = Ok d -> execute true mn mx ri ki ci runs A B = Ok d.
Proof.
  intros Hr Es Ea Eb Ec Ed. unfold execute_block.
  rewrite (bench_const runs _ _ _ Hr Es). cbn [bind].
  rewrite (bench_const runs (cut_both ar exc dbg true th A B (rl, nl, cl)) _ (a, b) Hr)
    by (unfold cut_both; rewrite Ea; cbn [bind]; rewrite Eb; reflexivity).
  cbn [bind fst snd].
  rewrite (bench_const runs _ _ c Hr) by (rewrite Ec; reflexivity). exact Ed.
Qed.

(** With limits 0 or 1 <= 2 * min <= max the action always delivers the product,
    however often it is repeated, whatever sizes are chosen, if no element is lost by
    the conversion of any block. *)
Theorem C68_block_action :
  forall (SD : Scalar D), exact ar ->
  forall mn mx (A B : dense D) m n l fa fb ri ki ci runs,
    (forall t, In t type_list -> ready t = true) -> float_exact ar p -> fits p m n l ->
    is_mat A m n fa -> d_orient A = ColMajor -> (Z.of_nat (length (d_buf A)) < 2 ^ 63)%Z ->
    is_mat B n l fb -> d_orient B = ColMajor -> (Z.of_nat (length (d_buf B)) < 2 ^ 63)%Z ->
    1 <= m -> 1 <= n -> 1 <= l -> 1 <= runs ->
    order_of ri (m - 1) -> order_of ki (n - 1) -> order_of ci (l - 1) ->
    valid_thr ar th -> zero_limits_agree th -> lossless ar th m n fa -> lossless ar th n l fb ->
    (0 <= mn)%Z -> (2 * mn <= mx)%Z -> (mx < 2 ^ 31)%Z ->
    (exists d, execute true mn mx ri ki ci runs A B = Ok d /\ is_mat d m l (mat_prod n fa fb)) \/
    (2 <= mn)%Z /\ execute true mn mx ri ki ci runs A B = UB UninitRead.
Proof.
  intros SD X mn mx A B m n l fa fb ri ki ci runs Hr He Hf MA OA LA MB OB LB Lm Ln Ll Lr P1 P2 P3 HT ZA KA KB H1 H2 H3.
  pose proof (limits_ok mn mx H1 H2 H3) as EL.
  destruct (sizes_cases bn A B m n l fa fb ri ki ci MA MB Lm Ln Ll P1 P2 P3 (Z.to_nat mn) (Z.to_nat mx)) as [(rl & nl & cl & G)|[L G]].
  - left. destruct (C39_product_sizes_tile D bn A B m n l fa fb _ _ ri ki ci rl nl cl MA MB Lm Ln Ll P1 P2 P3 G) as (T1 & T2 & T3).
    destruct (fin_choice2 (TL TZ) (length rl) (length nl) (fun I K t =>
        first_of (respects ar th (nth I rl 0) (nth K nl 0) (fun i j => fa (offs rl I + i) (offs nl K + j))) type_list t /\
        forall i j, i < nth I rl 0 -> j < nth K nl 0 ->
          stored_as ar th true t (fa (offs rl I + i) (offs nl K + j)) = fa (offs rl I + i) (offs nl K + j))) as (TA & HTA).
    { intros I K HI HK. destruct (offs_block rl m I T1 HI), (offs_block nl n K T2 HK). apply KA; auto. }
    destruct (fin_choice2 (TL TZ) (length nl) (length cl) (fun I K t =>
        first_of (respects ar th (nth I nl 0) (nth K cl 0) (fun i j => fb (offs nl I + i) (offs cl K + j))) type_list t /\
        forall i j, i < nth I nl 0 -> j < nth K cl 0 ->
          stored_as ar th true t (fb (offs nl I + i) (offs cl K + j)) = fb (offs nl I + i) (offs cl K + j))) as (TB & HTB).
    { intros I K HI HK. destruct (offs_block nl n I T2 HI), (offs_block cl l K T3 HK). apply KB; auto. }
    destruct (C53_pipeline F D ar SD X ready p exc dbg th A B m n l fa fb rl nl cl TA TB Hr He (fits_blocks p m n l rl nl cl Hf T1 T2 T3)
      MA OA LA MB OB LB T1 T2 T3 Ln HT ZA HTA HTB) as (a & b & c & d & Ea & Eb & Ec & Ed & Md).
    exists d. split; [|exact Md]. eapply execute_sizes; eauto. unfold block_sizes. rewrite EL. exact G.
  - right. split; [lia|]. unfold execute_block. rewrite bench_fail; [|exact Lr|].
    + unfold block_sizes. rewrite EL. cbn [bind fst snd]. rewrite G. reflexivity.
    + unfold block_sizes. rewrite EL. cbn [bind fst snd]. rewrite G. discriminate.
Qed.

(** Hence with a minimum of 0 or 1 the action never fails on such matrices. *)
Theorem C68_small_minimum :
  forall (SD : Scalar D), exact ar ->
  forall mn mx (A B : dense D) m n l fa fb ri ki ci runs,
    (forall t, In t type_list -> ready t = true) -> float_exact ar p -> fits p m n l ->
    is_mat A m n fa -> d_orient A = ColMajor -> (Z.of_nat (length (d_buf A)) < 2 ^ 63)%Z ->
    is_mat B n l fb -> d_orient B = ColMajor -> (Z.of_nat (length (d_buf B)) < 2 ^ 63)%Z ->
    1 <= m -> 1 <= n -> 1 <= l -> 1 <= runs ->
    order_of ri (m - 1) -> order_of ki (n - 1) -> order_of ci (l - 1) ->
    valid_thr ar th -> zero_limits_agree th -> lossless ar th m n fa -> lossless ar th n l fb ->
    (0 <= mn <= 1)%Z -> (2 * mn <= mx)%Z -> (mx < 2 ^ 31)%Z ->
    exists d, execute true mn mx ri ki ci runs A B = Ok d /\ is_mat d m l (mat_prod n fa fb).
Proof.
  intros SD X mn mx A B m n l fa fb ri ki ci runs Hr He Hf MA OA LA MB OB LB Lm Ln Ll Lr P1 P2 P3 HT ZA KA KB H1 H2 H3.
  destruct (C68_block_action SD X mn mx A B m n l fa fb ri ki ci runs Hr He Hf MA OA LA MB OB LB Lm Ln Ll Lr P1 P2 P3 HT ZA KA KB) as [H|[H _]]; auto; lia.
Qed.

(** Limits that do not fit together are refused, whatever the matrices. *)
Theorem C68_bad_limits :
  forall elide mn mx ri ki ci runs (A B : dense D), 1 <= runs ->
    (0 <= mn < 2 ^ 31)%Z -> (0 <= mx < 2 * mn)%Z ->
    execute elide mn mx ri ki ci runs A B = Throw.
Proof.
  intros elide mn mx ri ki ci runs A B Lr H1 H2. unfold execute_block.
  assert (E : block_sizes bn mn mx A B ri ki ci = Throw).
  { unfold block_sizes, bsg_new.
    assert (Q : (2 ^ 31 * 2 < 2 ^ 64)%Z) by reflexivity. assert (Q2 : (Z.of_N (2 ^ 64) = 2 ^ 64)%Z) by reflexivity.
    unfold to_size. rewrite !Z.mod_small by lia. rewrite N.mod_small by lia.
    destruct (N.ltb_spec (Z.to_N mx) (2 * Z.to_N mn)); [reflexivity|lia]. }
  rewrite E, bench_fail; [reflexivity|exact Lr|discriminate].
Qed.

(** Without a run the action returns an empty matrix. *)
Theorem C68_no_run :
  forall elide mn mx ri ki ci (A B : dense D),
    exists d, execute elide mn mx ri ki ci 0 A B = Ok d /\ d_rows d = 0 /\ d_cols d = 0.
Proof. intros. eexists. split; [reflexivity|]. split; reflexivity. Qed.

(** Known violation: a product with a dimension between 2 and 2 * min - 1 reads
    uninitialised variables; with the default minimum of 200 that is every
    dimension from 2 to 399. *)
Theorem C68_short_dimension_refuted :
  forall elide mn mx (A B : dense D) m n l fa fb ri ki ci runs k,
    is_mat A m n fa -> is_mat B n l fb -> 1 <= m -> 1 <= n -> 1 <= l -> 1 <= runs ->
    order_of ri (m - 1) -> order_of ki (n - 1) -> order_of ci (l - 1) ->
    (0 <= mn)%Z -> (2 * mn <= mx)%Z -> (mx < 2 ^ 31)%Z ->
    In k [m; n; l] -> (2 <= Z.of_nat k < 2 * mn)%Z ->
    execute elide mn mx ri ki ci runs A B = UB UninitRead.
Proof.
  intros elide mn mx A B m n l fa fb ri ki ci runs k MA MB Lm Ln Ll Lr P1 P2 P3 H1 H2 H3 Hk Hs. unfold execute_block.
  assert (E : block_sizes bn mn mx A B ri ki ci = UB UninitRead).
  { unfold block_sizes. rewrite (limits_ok mn mx H1 H2 H3). cbn [bind fst snd].
    apply (sizes_short bn A B m n l fa fb ri ki ci MA MB Lm Ln Ll P1 P2 P3 _ _ k Hk). lia. }
  rewrite E, bench_fail; [reflexivity|exact Lr|discriminate].
Qed.
End Action.
Print Assumptions C68_block_action. Print Assumptions C68_small_minimum. Print Assumptions C68_bad_limits.
Print Assumptions C68_no_run. Print Assumptions C68_short_dimension_refuted.
Corollary C68_default_limits_refuted :
  forall (F D : Type) (ar : arith F D) bn ready p exc dbg elide th (A B : dense D) n fa fb ri ki ci,
    is_mat A n n fa -> is_mat B n n fb -> 2 <= n <= 399 ->
    order_of ri (n - 1) -> order_of ki (n - 1) -> order_of ci (n - 1) ->
    execute_block ar bn ready p exc dbg elide th 200 1000 ri ki ci 1 A B = UB UninitRead.
Proof.
  intros F D ar bn ready p exc dbg elide th A B n fa fb ri ki ci MA MB Hn P1 P2 P3.
  apply (C68_short_dimension_refuted ar bn ready p exc dbg th elide 200 1000 A B n n n fa fb ri ki ci 1 n MA MB); auto; try lia. now left.
Qed.
Print Assumptions C68_default_limits_refuted.

(** The hypotheses can be met: every window of the demonstration matrices keeps its
    elements under [zthr]. *)
Lemma first_of_find (q : mty -> bool) l t : find q l = Some t -> first_of q l t.
Proof.
  induction l as [|x l IH]; cbn; [discriminate|]. destruct (q x) eqn:E.
  - intros [= <-]. exists [], l. repeat split; auto. intros u [].
  - intros H. destruct (IH H) as (pre & post & -> & Ht & Hp). exists (x :: pre), post. repeat split; auto.
    intros u [<-|Hu]; auto.
Qed.
Lemma zlossless th r c f :
  forallb (fun ro => forallb (fun co => forallb (fun nr => forallb (fun nc =>
    match find (respects zar th nr nc (fun i j => f (ro + i) (co + j))) type_list with
    | None => false
    | Some t => forallb (fun i => forallb (fun j => Z.eqb (stored_as zar th true t (f (ro + i) (co + j))) (f (ro + i) (co + j))) (seq 0 nc)) (seq 0 nr)
    end) (seq 1 (c - co))) (seq 1 (r - ro))) (seq 0 c)) (seq 0 r) = true -> lossless zar th r c f.
Proof.
  intros H ro co nr nc L1 L2 L3 L4.
  rewrite forallb_forall in H. specialize (H ro). rewrite in_seq in H. specialize (H ltac:(lia)).
  rewrite forallb_forall in H. specialize (H co). rewrite in_seq in H. specialize (H ltac:(lia)).
  rewrite forallb_forall in H. specialize (H nr). rewrite in_seq in H. specialize (H ltac:(lia)).
  rewrite forallb_forall in H. specialize (H nc). rewrite in_seq in H. specialize (H ltac:(lia)).
  destruct (find _ type_list) as [t|] eqn:E; [|discriminate]. exists t. split; [now apply first_of_find|].
  intros i j Hi Hj. rewrite forallb_forall in H. specialize (H i). rewrite in_seq in H. specialize (H ltac:(lia)).
  rewrite forallb_forall in H. specialize (H j). rewrite in_seq in H. specialize (H ltac:(lia)). now apply Z.eqb_eq.
Qed.
Example C68_nonvacuous :
  exact zar /\ float_exact zar PNative /\ fits PNative 2 3 2 /\ is_mat demoC 2 3 demoC_f /\ is_mat demoB 3 2 demoB_f /\
  order_of [0] (2 - 1) /\ order_of [1; 0] (3 - 1) /\ valid_thr zar zthr /\ zero_limits_agree zthr /\
  lossless zar zthr 2 3 demoC_f /\ lossless zar zthr 3 2 demoB_f /\
  exists d, execute_block zar zbn (fun _ => true) PNative true true true zthr 1 2 [0] [0; 1] [0] 3 demoC demoB = Ok d /\
    dget true d 1 1 = Ok 17%Z.
Proof.
  split; [exact zar_exact|]. split; [exact I|]. split; [exact I|]. split; [exact demoC_mat|]. split; [exact demoB_mat|].
  split; [apply Permutation_refl|]. split; [apply perm_swap|]. split; [exact zthr_valid|]. split; [reflexivity|].
  split; [apply zlossless; vm_compute; reflexivity|]. split; [apply zlossless; vm_compute; reflexivity|].
  eexists. split; vm_compute; reflexivity.
Qed.

(** Known violation: the result depends on the compiler eliding the copy of a
    returned local variable; without it the same run goes wrong. *)
Theorem C68_without_elision_refuted :
  exists e, execute_block zar zbn (fun _ => true) PNative true true false zthr 1 2 [0] [0; 1] [0] 1 demoC demoB = UB e.
Proof. eexists. vm_compute. reflexivity. Qed.
Print Assumptions C68_nonvacuous. Print Assumptions C68_without_elision_refuted.
