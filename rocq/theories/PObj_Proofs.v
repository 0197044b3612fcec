(** Handles simulate values. *)
From Verif Require Import Base BaseLemmas Dense_Model Sparse_Model Mult_Model Dyn_Model PObj_Model PObj_Spec.

(** Two outcomes of the same kind, with related results. *)
Definition rrel {A B} (R : A -> B -> Prop) (x : res A) (y : res B) : Prop :=
  match x, y with
  | Ok a, Ok b => R a b
  | Throw, Throw | AssertFail, AssertFail | Diverge, Diverge => True
  | UB u, UB w => u = w
  | _, _ => False
  end.

Lemma rrel_bind {A B A' B'} (Q : A -> B -> Prop) (R : A' -> B' -> Prop) x y f g :
  rrel Q x y -> (forall a b, Q a b -> rrel R (f a) (g b)) -> rrel R (bind x f) (bind y g).
Proof. destruct x, y; cbn; intros H1 H2; auto; try contradiction. Qed.

Lemma rrel_same {A} (x : res A) : rrel eq x x.
Proof. destruct x; cbn; auto. Qed.

Lemma rrel_foldM {X S S'} (R : S -> S' -> Prop) (f : X -> S -> res S) (g : X -> S' -> res S') l :
  (forall x a b, In x l -> R a b -> rrel R (f x a) (g x b)) ->
  forall a b, R a b -> rrel R (foldM f l a) (foldM g l b).
Proof.
  induction l as [|x l IH]; intros H a b Hab; cbn [foldM]; [exact Hab|].
  apply rrel_bind with (Q := R); [apply H; [now left|exact Hab]|]. intros; apply IH; auto. intros; apply H; [now right|assumption].
Qed.
Lemma rrel_forM {S S'} (R : S -> S' -> Prop) n (f : nat -> S -> res S) (g : nat -> S' -> res S') :
  (forall x a b, x < n -> R a b -> rrel R (f x a) (g x b)) ->
  forall a b, R a b -> rrel R (forM n f a) (forM n g b).
Proof. intros H a b Hab. unfold forM. apply rrel_foldM; auto. intros x a' b' Hin. apply in_seq in Hin. apply H. lia. Qed.

Lemma rrel_mono {A B} (R Q : A -> B -> Prop) x y : (forall a b, R a b -> Q a b) -> rrel R x y -> rrel Q x y.
Proof. destruct x, y; cbn; auto. Qed.

Section P.
Context {F D : Type} (ar : arith F D).
Implicit Types (h : heap F D).

(** ** Heaps *)

Definition wf_part h (t : lty) (p : option nat) : Prop :=
  match p with None => True | Some a => exists l, nth_error h a = Some (HL l) /\ leaf_ty l = t end.
Definition wf_heap h : Prop :=
  forall c t1 t2 p1 p2, nth_error h c = Some (HM t1 t2 p1 p2) -> wf_part h t1 p1 /\ wf_part h t2 p2.

(** [h'] is [h] with new objects, whose parts are new too. *)
Definition news h h' : Prop :=
  exists l, h' = h ++ l /\
    forall t1 t2 p1 p2, In (HM t1 t2 p1 p2) l ->
      (forall a, p1 = Some a -> length h <= a) /\ (forall a, p2 = Some a -> length h <= a).

Lemma news_refl h : news h h.
Proof. exists []. split; [now rewrite app_nil_r|]. intros ? ? ? ? []. Qed.
Lemma news_trans h1 h2 h3 : news h1 h2 -> news h2 h3 -> news h1 h3.
Proof.
  intros (l1 & -> & H1) (l2 & -> & H2). exists (l1 ++ l2). split; [now rewrite app_assoc|].
  intros t1 t2 p1 p2 Hin. apply in_app_or in Hin as [Hin|Hin]; [eauto|].
  destruct (H2 _ _ _ _ Hin) as [G1 G2]. rewrite app_length in *. split; intros a E; [apply G1 in E|apply G2 in E]; lia.
Qed.
Lemma news_length h h' : news h h' -> length h <= length h'.
Proof. intros (l & -> & _). rewrite app_length. lia. Qed.
Lemma news_nth h h' a x : news h h' -> nth_error h a = Some x -> nth_error h' a = Some x.
Proof. intros (l & -> & _) E. rewrite nth_error_app1; auto. apply nth_error_Some. congruence. Qed.

Lemma part_news h h' q m : news h h' -> part h q = Ok m -> part h' q = Ok m.
Proof.
  intros N. destruct q as [a|]; cbn [part]; auto. destruct (nth_error h a) eqn:E; [|discriminate].
  now rewrite (news_nth h h' a _ N E).
Qed.
Lemma load_news h h' q v : news h h' -> load h q = Ok v -> load h' q = Ok v.
Proof.
  intros N. destruct q as [a|]; cbn [load]; auto. destruct (nth_error h a) as [[l|t1 t2 p1 p2]|] eqn:E; [| |discriminate];
    rewrite (news_nth h h' a _ N E); auto.
  destruct (part h p1) as [m1| | | |] eqn:E1; cbn [bind]; try discriminate.
  destruct (part h p2) as [m2| | | |] eqn:E2; cbn [bind]; try discriminate.
  rewrite (part_news h h' _ _ N E1), (part_news h h' _ _ N E2). auto.
Qed.
Lemma load_lt h a v : load h (Some a) = Ok v -> a < length h.
Proof. cbn [load]. intros E. apply nth_error_Some. destruct (nth_error h a); congruence. Qed.

(** Values whose parts have the declared types. *)
Definition dyn_wt (d : dyn F D) : Prop :=
  match d with
  | DL _ => True
  | DM t1 t2 m1 m2 => (forall l, m1 = Some l -> leaf_ty l = t1) /\ (forall l, m2 = Some l -> leaf_ty l = t2)
  end.

Lemma wf_part_news h h' t q : news h h' -> wf_part h t q -> wf_part h' t q.
Proof. intros N. destruct q as [a|]; cbn; auto. intros (l & E & T). exists l. split; auto. eapply news_nth; eauto. Qed.

Lemma nth_app_cases {A} (l m : list A) i x : nth_error (l ++ m) i = Some x ->
  (i < length l /\ nth_error l i = Some x) \/ (length l <= i /\ nth_error m (i - length l) = Some x).
Proof.
  intros E. destruct (Nat.lt_ge_cases i (length l)).
  - left. split; auto. now rewrite nth_error_app1 in E.
  - right. split; auto. now rewrite nth_error_app2 in E.
Qed.

(** No two-part object has [a] as a part. *)
Definition not_part h (a : nat) : Prop :=
  forall c t1 t2 p1 p2, nth_error h c = Some (HM t1 t2 p1 p2) -> p1 <> Some a /\ p2 <> Some a.
Lemma part_lt h c t1 t2 p1 p2 : wf_heap h -> nth_error h c = Some (HM t1 t2 p1 p2) ->
  (forall a, p1 = Some a -> a < length h) /\ (forall a, p2 = Some a -> a < length h).
Proof.
  intros W E. apply W in E as [E1 E2]. split; intros a ->; [destruct E1 as (l & E & _)|destruct E2 as (l & E & _)];
    apply nth_error_Some; congruence.
Qed.

(** Adding a one-part object. *)
Lemma news_leaf h l : news h (h ++ [HL l]).
Proof. exists [HL l]. split; auto. intros t1 t2 p1 p2 [E|[]]. discriminate. Qed.
Lemma wf_leaf h l : wf_heap h -> wf_heap (h ++ [HL l]).
Proof.
  intros W c t1 t2 p1 p2 E. apply nth_app_cases in E as [[_ E]|[_ E]].
  - destruct (W _ _ _ _ _ E). split; eapply wf_part_news; eauto using news_leaf.
  - destruct (c - length h) as [|[|]]; discriminate.
Qed.
Lemma nth_last {A} (l : list A) x : nth_error (l ++ [x]) (length l) = Some x.
Proof. rewrite nth_error_app2, Nat.sub_diag; auto. Qed.

Lemma new_part_ok h m h1 q : new_part h m = (h1, q) -> wf_heap h ->
  news h h1 /\ wf_heap h1 /\ part h1 q = Ok m /\ (forall a, q = Some a -> length h <= a) /\
  (forall t, (forall l, m = Some l -> leaf_ty l = t) -> wf_part h1 t q).
Proof.
  destruct m as [l|]; cbn [new_part]; intros E W; injection E as <- <-.
  - split; [apply news_leaf|]. split; [now apply wf_leaf|]. cbn [part]. rewrite nth_last. split; auto. split.
    + intros a E. injection E as <-. lia.
    + intros t H. exists l. split; [apply nth_last|auto].
  - split; [apply news_refl|]. split; [exact W|]. split; [reflexivity|]. split; [discriminate|]. intros; exact Coq.Init.Logic.I.
Qed.

Lemma store_ok h d h' q : store h d = (h', q) -> wf_heap h -> (forall x, d = Some x -> dyn_wt x) ->
  news h h' /\ wf_heap h' /\ load h' q = Ok d /\ (forall a, q = Some a -> length h <= a) /\
  (forall a, q = Some a -> not_part h' a).
Proof.
  destruct d as [[l|t1 t2 m1 m2]|]; cbn [store]; intros E W T.
  - injection E as <- <-. split; [apply news_leaf|]. split; [now apply wf_leaf|]. cbn [load]. rewrite nth_last.
    split; auto. split; intros a E; injection E as <-; [lia|].
    intros c t1 t2 p1 p2 E. apply nth_app_cases in E as [[_ E]|[_ E]].
    + apply part_lt in E as [E1 E2]; auto. split; intros ->; [specialize (E1 _ eq_refl)|specialize (E2 _ eq_refl)]; lia.
    + destruct (c - length h) as [|[|]]; discriminate.
  - destruct (new_part h m1) as [h1 q1] eqn:E1. destruct (new_part h1 m2) as [h2 q2] eqn:E2. injection E as <- <-.
    destruct (new_part_ok _ _ _ _ E1 W) as (N1 & W1 & L1 & A1 & T1).
    destruct (new_part_ok _ _ _ _ E2 W1) as (N2 & W2 & L2 & A2 & T2).
    destruct (T _ eq_refl) as [Q1 Q2].
    pose proof (news_length _ _ N1). pose proof (news_length _ _ N2).
    assert (N3 : news h (h2 ++ [HM t1 t2 q1 q2])).
    { destruct (news_trans _ _ _ N1 N2) as (l & -> & Hl). exists (l ++ [HM t1 t2 q1 q2]). split; [now rewrite app_assoc|].
      intros s1 s2 p1 p2 Hin. apply in_app_or in Hin as [Hin|[Hin|[]]]; [eauto|]. injection Hin as <- <- <- <-.
      split; [exact A1|]. intros a Ea. apply A2 in Ea. lia. }
    assert (NX : forall x, nth_error h2 x <> None -> nth_error (h2 ++ [HM t1 t2 q1 q2]) x = nth_error h2 x).
    { intros x Hx. apply nth_error_app1. now apply nth_error_Some. }
    assert (WP : forall t q, wf_part h2 t q -> wf_part (h2 ++ [HM t1 t2 q1 q2]) t q).
    { intros t [a|]; cbn; auto. intros (l & El & Tl). exists l. rewrite NX; [auto|congruence]. }
    assert (PP : forall q m, part h2 q = Ok m -> part (h2 ++ [HM t1 t2 q1 q2]) q = Ok m).
    { intros [a|] m; cbn [part]; auto. intros Em. rewrite NX; auto. destruct (nth_error h2 a); congruence. }
    split; [exact N3|]. assert (W3 : wf_heap (h2 ++ [HM t1 t2 q1 q2])); [|split; [exact W3|split]].
    + intros c s1 s2 p1 p2 E. apply nth_app_cases in E as [[_ E]|[_ E]].
      * destruct (W2 _ _ _ _ _ E). auto.
      * destruct (c - length h2) as [|[|]]; try discriminate. injection E as <- <- <- <-.
        split; apply WP; [eapply wf_part_news; [exact N2|apply T1; auto]|apply T2; auto].
    + cbn [load]. rewrite nth_last, (PP q1 m1), (PP q2 m2); auto. eapply part_news; eauto.
    + split; intros a E; injection E as <-; [lia|]. intros c s1 s2 p1 p2 E. apply W3 in E as [Q3 Q4].
      split; intros ->; [destruct Q3 as (l & E & _)|destruct Q4 as (l & E & _)]; rewrite nth_last in E; discriminate.
  - injection E as <- <-. split; [apply news_refl|]. split; [exact W|]. split; [reflexivity|split; discriminate].
Qed.

(** ** Arrays of handles *)

Definition crel h (c : option (option nat)) (v : option (option (dyn F D))) : Prop :=
  match c, v with
  | None, None => True
  | Some q, Some x => load h q = Ok x
  | _, _ => False
  end.
Definition drel h (C : dense (option nat)) (V : dense (option (dyn F D))) : Prop :=
  d_sh C = d_sh V /\ d_full C = d_full V /\ d_own C = d_own V /\ Forall2 (crel h) (d_buf C) (d_buf V).
Definition brel h (B : hblocked) (V : blocked F D) : Prop :=
  drel h (hb_mat B) (b_mat V) /\ hb_ubr B = b_ubr V /\ hb_ubc B = b_ubc V.

Lemma crel_news h h' c v : news h h' -> crel h c v -> crel h' c v.
Proof. intros N. destruct c, v; cbn; auto. intros. eapply load_news; eauto. Qed.
Lemma Forall2_imp {A B} (P Q : A -> B -> Prop) l m : (forall a b, P a b -> Q a b) -> Forall2 P l m -> Forall2 Q l m.
Proof. intros H. induction 1; constructor; auto. Qed.
Lemma drel_news h h' C V : news h h' -> drel h C V -> drel h' C V.
Proof. intros N (A & B & E & G). repeat split; auto. eapply Forall2_imp; [|exact G]. intros; eapply crel_news; eauto. Qed.
Lemma brel_news h h' C V : news h h' -> brel h C V -> brel h' C V.
Proof. intros N (A & B & E). repeat split; auto; eapply drel_news; eauto. Qed.

Lemma Forall2_nth {A B} (P : A -> B -> Prop) l m : Forall2 P l m -> forall i,
  match nth_error l i, nth_error m i with Some a, Some b => P a b | None, None => True | _, _ => False end.
Proof. induction 1; intros [|i]; cbn; auto. apply IHForall2. Qed.
Lemma Forall2_upd {A B} (P : A -> B -> Prop) l m i a b : Forall2 P l m -> P a b -> Forall2 P (upd l i a) (upd m i b).
Proof. intros H. revert i. induction H; intros [|i] Hab; cbn; constructor; auto. Qed.
Lemma Forall2_len {A B} (P : A -> B -> Prop) l m : Forall2 P l m -> length l = length m.
Proof. induction 1; cbn; auto. Qed.

Lemma rd_rel h l m i : Forall2 (crel h) l m -> rrel (fun q v => load h q = Ok v) (rd l i) (rd m i).
Proof.
  intros H. pose proof (Forall2_nth _ _ _ H i) as G. unfold rd.
  destruct (nth_error l i) as [[|]|], (nth_error m i) as [[|]|]; cbn in *; auto; contradiction.
Qed.
Lemma wr_rel h l m i q v : Forall2 (crel h) l m -> load h q = Ok v ->
  rrel (Forall2 (crel h)) (wr l i q) (wr m i v).
Proof.
  intros H E. unfold wr. rewrite (Forall2_len _ _ _ H). destruct (i <? length m); cbn; auto. apply Forall2_upd; auto.
Qed.
Lemma dget_rel h dbg C V i j : drel h C V -> rrel (fun q v => load h q = Ok v) (dget dbg C i j) (dget dbg V i j).
Proof.
  intros (E & _ & _ & G). unfold dget. rewrite E. eapply rrel_bind; [apply rrel_same|]. intros a ? <-. now apply rd_rel.
Qed.
Lemma dset_rel h dbg C V i j q v : drel h C V -> load h q = Ok v -> rrel (drel h) (dset dbg C i j q) (dset dbg V i j v).
Proof.
  intros (E & E1 & E2 & G) L. unfold dset. rewrite E. eapply rrel_bind; [apply rrel_same|]. intros a ? <-.
  eapply rrel_bind; [apply wr_rel; eauto|]. intros x y Hxy. cbn. repeat split; auto.
Qed.

Lemma load_blocked_rel h B V : brel h B V -> load_blocked h B = Ok V.
Proof.
  intros ((E & E1 & E2 & G) & E3 & E4). unfold load_blocked.
  assert (M : mapM (load_cell h) (d_buf (hb_mat B)) = Ok (d_buf (b_mat V))).
  { induction G as [|c v l m Hc G IH]; cbn [mapM]; auto.
    destruct c, v; cbn in Hc |- *; try contradiction; rewrite ?Hc; cbn [bind]; rewrite IH; reflexivity. }
  rewrite M. cbn [bind]. rewrite E, E1, E2, E3, E4. destruct V as [[]]; reflexivity.
Qed.

(** ** Which addresses occur *)

Definition refs_blk (B : hblocked) (a : nat) : Prop := In (Some (Some a)) (d_buf (hb_mat B)).

Lemma exec_dyn_result {R} ready (op : dyn F D -> dyn F D -> res R) x y r : exec_dyn_2dim ready op x y = Ok r ->
  exists a b, op a b = Ok r.
Proof.
  unfold exec_dyn_2dim. destruct x as [x|], y as [y|]; cbn [deref bind]; try discriminate.
  unfold dyn_table. rewrite nth_error_map. destruct (nth_error type_list (type_index x)) as [t1|]; [|discriminate].
  cbn [option_map]. rewrite nth_error_map. destruct (nth_error type_list (type_index y)) as [t2|]; [|discriminate].
  cbn [option_map]. destruct (ready t1); [|discriminate]. unfold functor. destruct (mty_eqb _ _ && mty_eqb _ _); [|discriminate]. eauto.
Qed.

Lemma hop_rel ready p dbg k h x y vx vy : wf_heap h -> load h x = Ok vx -> load h y = Ok vy ->
  rrel (fun (r : heap F D * option nat) z => news h (fst r) /\ wf_heap (fst r) /\ load (fst r) (snd r) = Ok z /\
          (forall a, snd r = Some a -> length h <= a) /\ (forall a, snd r = Some a -> not_part (fst r) a))
    (hop ar ready p dbg k h x y) (value_op ar ready p dbg k vx vy).
Proof.
  intros W Ex Ey. unfold hop. rewrite Ex, Ey. cbn [bind].
  assert (T : forall z, value_op ar ready p dbg k vx vy = Ok z -> forall d, z = Some d -> dyn_wt d).
  { intros z Ez d ->. destruct k; cbn [value_op] in Ez; unfold mul_ptr, add_ptr, sub_ptr in Ez; apply exec_dyn_result in Ez as (a & b & Ez);
      (match type of Ez with (do _ <- ?r; _) = _ => destruct r as [c| | | |]; cbn [bind] in Ez; try discriminate end);
      injection Ez as <-; exact Coq.Init.Logic.I. }
  destruct (value_op ar ready p dbg k vx vy) as [z| | | |]; cbn; auto.
  destruct (store h z) as [h' q] eqn:E. apply store_ok in E; auto. intros d ->; eapply T; eauto.
Qed.

(** All handles of a fresh array are new. *)
Definition fresh_buf h0 (b : buf (option nat)) : Prop := forall a, In (Some (Some a)) b -> length h0 <= a.
Lemma fresh_upd h0 b i q : fresh_buf h0 b -> (forall a, q = Some a -> length h0 <= a) -> fresh_buf h0 (upd b i (Some q)).
Proof.
  intros H Hq a Hin. apply In_nth_error in Hin as [k Ek].
  destruct (Nat.eq_dec k i) as [->|Hn].
  - destruct (Nat.lt_ge_cases i (length b)).
    + rewrite nth_error_upd_eq in Ek by auto. injection Ek as ->. auto.
    + assert (i < length (upd b i (Some q))) by (apply nth_error_Some; congruence). rewrite upd_length in *. lia.
  - rewrite nth_error_upd_ne in Ek by auto. apply nth_error_In in Ek. auto.
Qed.
Lemma fresh_wr h0 b i q b' : fresh_buf h0 b -> (forall a, q = Some a -> length h0 <= a) -> wr b i q = Ok b' -> fresh_buf h0 b'.
Proof. unfold wr. destruct (i <? length b); [|discriminate]. intros H Hq E. injection E as <-. now apply fresh_upd. Qed.

Definition srel h0 (st : heap F D * dense (option nat)) (V : dense (option (dyn F D))) : Prop :=
  news h0 (fst st) /\ wf_heap (fst st) /\ drel (fst st) (snd st) V /\ fresh_buf h0 (d_buf (snd st)).

Lemma wr_frel h0 h l m i q v : Forall2 (crel h) l m -> load h q = Ok v -> fresh_buf h0 l -> (forall a, q = Some a -> length h0 <= a) ->
  rrel (fun l m => Forall2 (crel h) l m /\ fresh_buf h0 l) (wr l i q) (wr m i v).
Proof.
  intros H E G Hq. pose proof (wr_rel h l m i q v H E) as W. destruct (wr l i q) eqn:El, (wr m i v); cbn in *; auto.
  split; auto. eapply fresh_wr; eauto.
Qed.

Lemma hmul_rel ready p dbg h A B VA VB : wf_heap h -> brel h A VA -> brel h B VB ->
  rrel (fun r V => news h (fst r) /\ wf_heap (fst r) /\ brel (fst r) (snd r) V /\ (forall a, refs_blk (snd r) a -> length h <= a))
    (hmul_blocked ar ready p dbg h A B) (mul_blocked ar ready p dbg VA VB).
Proof.
  intros W ((SA & _ & _ & GA) & UA & _) ((SB & _ & _ & GB) & _ & UB).
  unfold hmul_blocked, mul_blocked. unfold d_rows, d_cols. rewrite SA, SB.
  set (n := sh_rows (d_sh (b_mat VA)) * sh_cols (d_sh (b_mat VB))).
  apply rrel_bind with (Q := srel h).
  2:{ intros [h1 C] V (N & W1 & R & Fb). cbn. split; [exact N|]. split; [exact W1|]. split; [|exact Fb]. repeat split; auto; apply R. }
  apply rrel_forM.
  2:{ split; [apply news_refl|]. split; [exact W|]. cbn [fst snd d_buf d_sh d_full d_own blk_resize b_mat blk_new own_shape sh_sub sh_ldr sh_ldc sh_base].
      unfold palloc. cbn [repeat length Nat.mul]. split.
      - repeat split; auto. cbn [d_buf].
        fold n. generalize n. clear. intros n. destruct (0 =? n); [constructor|]. induction n; cbn; constructor; cbn; auto.
      - intros a Hin. destruct (0 =? n); [destruct Hin|]. apply repeat_spec in Hin. discriminate. }
  intros i st0 V0 Hi R0. apply rrel_forM; [|exact R0]. clear st0 V0 R0.
  intros j [h1 C] V Hj (N & W1 & R & Fb). cbn [fst snd] in *. pose proof R as (SC & _ & _ & GC). rewrite SC.
  eapply rrel_bind; [apply rrel_same|]. intros ads ? <-.
  destruct (enum ads) as [|[k pa] rest]; [exact (conj N (conj W1 (conj R Fb)))|].
  set (pc := cur_begin (d_sh V) DRow i + j * cur_stride (d_sh V) DCol).
  set (pb := fun k => cur_begin (d_sh (b_mat VB)) DCol j + k * cur_stride (d_sh (b_mat VB)) DRow).
  eapply rrel_bind; [apply (rd_rel h); exact GA|]. intros x vx Ex.
  eapply rrel_bind; [apply (rd_rel h); exact GB|]. intros y vy Ey.
  eapply rrel_bind; [apply (hop_rel ready p dbg OMul); [exact W1|eapply load_news; [|exact Ex]; exact N|eapply load_news; [|exact Ey]; exact N]|].
  intros [h2 z] vz (N2 & W2 & Ez & Fz & _). cbn [fst snd] in *.
  assert (N02 : news h h2) by (eapply news_trans; eauto).
  assert (LE : length h <= length h1) by (apply news_length; auto).
  eapply rrel_bind.
  { apply (wr_frel h h2); [eapply Forall2_imp; [|exact GC]; intros; eapply (crel_news h1 h2); eauto|exact Ez|exact Fb|].
    intros a0 Ea. apply Fz in Ea. lia. }
  intros bC bV (Gb & Fb2).
  apply rrel_foldM; [|split; [exact N02|split; [exact W2|]]; cbn; split; [repeat split; auto; try apply R|exact Fb2]].
  clearbody pc. clear h1 C V N W1 R Fb SC GC x vx Ex y vy Ey h2 z vz N2 W2 Ez Fz N02 LE bC bV Gb Fb2.
  intros [k' pa'] [h1 C] V _ (N & W1 & R & Fb). cbn [fst snd] in *. pose proof R as (SC & E2 & E3 & GC).
  eapply rrel_bind; [apply (rd_rel h1); exact GC|]. intros w vw Ew.
  eapply rrel_bind; [apply (rd_rel h); exact GA|]. intros x vx Ex.
  eapply rrel_bind; [apply (rd_rel h); exact GB|]. intros y vy Ey.
  eapply rrel_bind; [apply (hop_rel ready p dbg OMul); [exact W1|eapply load_news; [|exact Ex]; exact N|eapply load_news; [|exact Ey]; exact N]|].
  intros [h2 z] vz (N2 & W2 & Ez & Fz & _). cbn [fst snd] in *.
  eapply rrel_bind; [apply (hop_rel ready p dbg OAdd); [exact W2|eapply load_news; [|exact Ew]; exact N2|exact Ez]|].
  intros [h3 s] vs (N3 & W3 & Es & Fs & _). cbn [fst snd] in *.
  assert (N13 : news h1 h3) by (eapply news_trans; eauto).
  pose proof (news_length _ _ N). pose proof (news_length _ _ N2). pose proof (news_length _ _ N3).
  eapply rrel_bind.
  { apply (wr_frel h h3); [eapply Forall2_imp; [|exact GC]; intros; eapply (crel_news h1 h3); eauto|exact Es|exact Fb|].
    intros a0 Ea. apply Fs in Ea. lia. }
  intros bC bV (Gb & Fb2). cbn. split; [eapply news_trans; eauto|]. split; [exact W3|]. split; [repeat split; auto|exact Fb2].
Qed.

(** The converter's results have parts of the declared types. *)
Lemma leaf_chk_ty t chk m l : leaf_chk ar t chk m = Ok l -> leaf_ty l = t.
Proof.
  destruct t as [|[|]|[|]]; cbn [leaf_chk]; unfold rmap; intros E;
    try (match type of E with (do _ <- ?r; _) = _ => destruct r; cbn [bind] in E; try discriminate end); injection E as <-; reflexivity.
Qed.
Lemma convert_to_wt exc dbg th m t d : convert_to ar exc dbg th m t = Ok d -> dyn_wt d.
Proof.
  destruct t as [[|[|]|e]|t1 t2]; cbn [convert_to]; unfold rmap; intros E;
    try (repeat match type of E with (do _ <- ?r; _) = _ => destruct r; cbn [bind] in E; try discriminate end; injection E as <-; exact Coq.Init.Logic.I).
  destruct (gt_new ar (sigF th)) as [c1| | | |]; cbn [bind] in E; try discriminate.
  destruct (leaf_chk ar t1 c1 m) as [x1| | | |] eqn:E1; cbn [bind] in E; try discriminate.
  destruct (range_new ar (sigD th) (sigF th)) as [c2| | | |]; cbn [bind] in E; try discriminate.
  destruct (leaf_chk ar t2 c2 m) as [x2| | | |] eqn:E2; cbn [bind] in E; try discriminate.
  apply leaf_chk_ty in E1, E2. unfold mm_new in E.
  repeat match type of E with (do _ <- ?r; _) = _ => destruct r; cbn [bind] in E; try discriminate end.
  injection E as <-. cbn. split; intros l El; injection El as <-; auto.
Qed.
Lemma convert_wt exc dbg th m d : convert ar exc dbg th m = Ok d -> dyn_wt d.
Proof.
  unfold convert. generalize type_list as l. intros l. induction l as [|t r IH]; cbn [convert_first]; [discriminate|].
  intros E. destruct r.
  - repeat match type of E with (do _ <- ?r; _) = _ => destruct r; cbn [bind] in E; try discriminate end. eapply convert_to_wt; eauto.
  - destruct (is_convertible ar th m t) as [[|]| | | |]; cbn [bind] in E; try discriminate; [eapply convert_to_wt; eauto|auto].
Qed.

Lemma hcut_rel exc dbg th h m rl cl : wf_heap h ->
  rrel (fun r V => news h (fst r) /\ wf_heap (fst r) /\ brel (fst r) (snd r) V /\ (forall a, refs_blk (snd r) a -> length h <= a))
    (hcut ar exc dbg th h m rl cl) (cut ar exc dbg th m rl cl).
Proof.
  intros W. unfold hcut, cut. cbn [hblk_new hb_mat blk_new b_mat hb_ubr hb_ubc b_ubr b_ubc d_sh d_rows own_shape sh_rows].
  apply rrel_bind with (Q := fun (s : heap F D * dense (option nat) * nat) (q : dense (option (dyn F D)) * nat) => srel h (fst s) (fst q) /\ snd s = snd q).
  2:{ intros [[h1 C] ro] [V ro'] ((N & W1 & R & Fb) & _). cbn in *. split; [exact N|]. split; [exact W1|]. split; [|exact Fb]. repeat split; auto; apply R. }
  apply rrel_forM.
  2:{ cbn. split; auto. split; [apply news_refl|]. split; [exact W|]. cbn. split.
      - repeat split; auto. cbn. unfold palloc. generalize (length rl * length cl). clear. intros n. induction n; cbn; constructor; cbn; auto.
      - intros a Hin. apply repeat_spec in Hin. discriminate. }
  intros i [[h1 C] ro] [V ro'] Hi ((N & W1 & R & Fb) & E). cbn [fst snd] in *. subst ro'.
  destruct (nth_error rl i) as [nr|]; [|cbn; auto].
  pose proof R as (SC & _). rewrite SC. eapply rrel_bind; [apply rrel_same|]. intros ads ? <-.
  apply rrel_bind with (Q := fun (s : heap F D * dense (option nat) * nat) (q : dense (option (dyn F D)) * nat) => srel h (fst s) (fst q) /\ snd s = snd q).
  2:{ intros [[h2 C2] co] [V2 co'] (S2 & _). cbn in *. auto. }
  apply rrel_foldM; [|exact (conj (conj N (conj W1 (conj R Fb))) eq_refl)].
  clear h1 C V N W1 R Fb SC.
  intros [k pa] [[h1 C] co] [V co'] _ ((N & W1 & R & Fb) & E). cbn [fst snd] in *. subst co'.
  destruct (nth_error cl k) as [nc|]; [|cbn; auto].
  destruct (convert ar exc dbg th (d_window m nr nc ro co)) as [x| | | |] eqn:Ex; cbn [bind]; cbn [rrel]; auto.
  destruct (store h1 (Some x)) as [h2 q] eqn:Es.
  apply store_ok in Es as (N2 & W2 & Eq & Fq & _); auto; [|intros d Ed; injection Ed as <-; eapply convert_wt; eauto].
  pose proof R as (SC & E2 & E3 & GC). pose proof (news_length _ _ N). pose proof (news_length _ _ N2).
  eapply rrel_bind.
  { apply (wr_frel h h2); [eapply Forall2_imp; [|exact GC]; intros; eapply (crel_news h1 h2); eauto|exact Eq|exact Fb|].
    intros a0 Ea. apply Fq in Ea. lia. }
  intros bC bV (Gb & Fb2). cbn. split; auto. split; [eapply news_trans; eauto|]. split; [exact W2|]. split; [repeat split; auto|exact Fb2].
Qed.
End P.
