(** C35-C38: value checkers, cached norm and occupation.  Vocabulary:
    Check_Spec.v. *)
From Verif Require Import Base BaseLemmas Dyn_Model Check_Model Check_Spec.

Section Checkers.
Context {F D : Type} (ar : arith F D) (L : linear ar).

Lemma lt_asym x y : ltD ar x y = true -> ltD ar y x = false.
Proof.
  intros H. destruct (ltD ar y x) eqn:E; [|reflexivity].
  pose proof (ln_trans ar L x y x H E) as T. now rewrite (ln_irrefl ar L) in T.
Qed.
Lemma le_iff x y : leD ar x y = true <-> le ar x y.
Proof.
  rewrite (ln_le ar L). unfold le, lt. destruct (ltD ar y x) eqn:E; cbn.
  - split; [discriminate|]. intros [H|<-]; [|now rewrite (ln_irrefl ar L) in E]. rewrite (lt_asym _ _ H) in E. discriminate.
  - split; [|reflexivity]. intros _. destruct (ln_total ar L x y) as [H|[H|H]]; auto. congruence.
Qed.
Lemma ltF_iff x y : ltD ar x y = false <-> le ar y x.
Proof. rewrite <- le_iff, (ln_le ar L). destruct (ltD ar x y); cbn; intuition. Qed.
Lemma leF_iff x y : leD ar x y = false <-> lt ar y x.
Proof. rewrite (ln_le ar L). unfold lt. destruct (ltD ar y x); cbn; intuition. Qed.

Lemma ck_ok_iff c x : ck_ok ar c x = true <-> in_range ar c x.
Proof.
  unfold ck_ok, in_range. destruct (ck_k c); rewrite ?andb_true_iff, ?le_iff; unfold lt; tauto.
Qed.
Lemma ck_new_iff t k lo hi : (ck_new ar t k lo hi = Ok (mkChecker t k lo hi) <-> range_ok ar k lo hi) /\
  (ck_new ar t k lo hi = Throw <-> ~ range_ok ar k lo hi).
Proof.
  assert (G : range_ok ar k lo hi /\ ck_new ar t k lo hi = Ok (mkChecker t k lo hi) \/
              ~ range_ok ar k lo hi /\ ck_new ar t k lo hi = Throw).
  { unfold ck_new, range_ok. destruct (ltD ar lo (d0 ar)) eqn:E1.
    { right. split; [|destruct k; reflexivity]. intros [H _]. apply ltF_iff in H. congruence. }
    apply ltF_iff in E1.
    destruct k; [left; auto| | |]; destruct (ltD ar hi (d0 ar)) eqn:E2;
      try (right; split; [intros (_ & H & _); apply ltF_iff in H; congruence|reflexivity]); apply ltF_iff in E2.
    - destruct (leD ar hi lo) eqn:E3; [right|left]; (split; [|reflexivity]).
      + intros (_ & _ & H). unfold lt in H. rewrite (ln_le ar L), H in E3. discriminate.
      + apply leF_iff in E3. auto.
    - destruct (ltD ar hi lo) eqn:E3; [right|left]; (split; [|reflexivity]).
      + intros (_ & _ & H). apply ltF_iff in H. congruence.
      + apply ltF_iff in E3. auto.
    - destruct (leD ar hi lo) eqn:E3; [right|left]; (split; [|reflexivity]).
      + intros (_ & _ & H). unfold lt in H. rewrite (ln_le ar L), H in E3. discriminate.
      + apply leF_iff in E3. auto. }
  destruct G as [[H E]|[H E]]; rewrite E; split; split; intros; try tauto; try discriminate; reflexivity.
Qed.

(** *** the order *)
Definition hi' (c : checker D) : D := match ck_k c with ExclNo => d0 ar | _ => ck_hi c end.
Definition LT (a b : checker D) : Prop :=
  (ck_id a < ck_id b)%nat \/ ck_id a = ck_id b /\ (lt ar (ck_lo a) (ck_lo b) \/ ck_lo a = ck_lo b /\ lt ar (hi' a) (hi' b)).

Lemma id_kind (a b : checker D) : ck_t a = TTdouble -> ck_t b = TTdouble -> ck_id a = ck_id b -> ck_k a = ck_k b.
Proof. unfold ck_id. intros -> ->. destruct (ck_k a), (ck_k b); congruence. Qed.

Lemma ck_lt_spec a b : ck_t a = TTdouble -> ck_t b = TTdouble ->
  (ck_lt ar a b = Ok true /\ LT a b) \/ (ck_lt ar a b = Ok false /\ ~ LT a b).
Proof.
  intros Ha Hb. unfold ck_lt, LT. destruct (Nat.ltb_spec (ck_id a) (ck_id b)); [left; auto|].
  destruct (Nat.ltb_spec (ck_id b) (ck_id a)); [right; split; [reflexivity|lia]|].
  assert (EI : ck_id a = ck_id b) by lia. pose proof (id_kind a b Ha Hb EI) as EK.
  rewrite Ha, Hb, EK. replace (ckind_eqb (ck_k b) (ck_k b)) with true by (now destruct (ck_k b)). cbn [tty_eqb andb negb].
  assert (HN : ltD ar (d0 ar) (d0 ar) = false) by apply (ln_irrefl ar L).
  assert (HL : forall x y, (lex2 ar (ck_lo a) x (ck_lo b) y = true /\ (lt ar (ck_lo a) (ck_lo b) \/ ck_lo a = ck_lo b /\ lt ar x y)) \/
                           (lex2 ar (ck_lo a) x (ck_lo b) y = false /\ ~ (lt ar (ck_lo a) (ck_lo b) \/ ck_lo a = ck_lo b /\ lt ar x y))).
  { intros x y. unfold lex2, lt. destruct (ltD ar (ck_lo a) (ck_lo b)) eqn:E1; [left; auto|].
    destruct (ltD ar (ck_lo b) (ck_lo a)) eqn:E2.
    - right. split; [reflexivity|]. intros [H1|[H1 _]]; [discriminate|]. rewrite H1, (ln_irrefl ar L) in E2. discriminate.
    - destruct (ln_total ar L (ck_lo a) (ck_lo b)) as [H1|[H1|H1]]; [congruence| |congruence].
      destruct (ltD ar x y) eqn:E3; [left|right]; (split; [reflexivity|]); [auto|]. intros [H2|[_ H2]]; congruence. }
  unfold hi'. rewrite EK. destruct (ck_k b);
    [|destruct (HL (ck_hi a) (ck_hi b)) as [[-> H1]|[-> H1]]; [left|right]; (split; [reflexivity|]); intuition lia..].
  unfold lt. destruct (ltD ar (ck_lo a) (ck_lo b)) eqn:E1; [left|right]; (split; [reflexivity|]); [tauto|].
  rewrite HN. intros [H1|(_ & [H1|[_ H1]])]; [lia|discriminate|discriminate].
Qed.

Lemma LT_irrefl a : ~ LT a a.
Proof. unfold LT, lt. rewrite !(ln_irrefl ar L). intros [H|(_ & [H|[_ H]])]; [lia|discriminate|discriminate]. Qed.
Lemma LT_trans a b c : LT a b -> LT b c -> LT a c.
Proof.
  unfold LT. intros [H|(H & [H1|[H1 H2]])] [G|(G & [G1|[G1 G2]])]; try (left; lia); right; (split; [lia|]).
  - left. eapply (ln_trans ar L); eauto.
  - left. now rewrite <- G1.
  - left. now rewrite H1.
  - right. split; [congruence|]. eapply (ln_trans ar L); eauto.
Qed.
Lemma LT_total a b : LT a b \/ LT b a \/ (ck_id a = ck_id b /\ ck_lo a = ck_lo b /\ hi' a = hi' b).
Proof.
  unfold LT, lt. destruct (Nat.lt_total (ck_id a) (ck_id b)) as [H|[H|H]]; [tauto| |tauto].
  destruct (ln_total ar L (ck_lo a) (ck_lo b)) as [G|[G|G]]; [tauto| |intuition].
  destruct (ln_total ar L (hi' a) (hi' b)) as [I|[I|I]]; intuition.
Qed.

Lemma equiv_same a b : ck_t a = TTdouble -> ck_t b = TTdouble ->
  ck_lt ar a b = Ok false -> ck_lt ar b a = Ok false -> forall x, ck_ok ar a x = ck_ok ar b x.
Proof.
  intros Ha Hb H1 H2 x.
  destruct (ck_lt_spec a b Ha Hb) as [[E _]|[_ N1]]; [congruence|]. destruct (ck_lt_spec b a Hb Ha) as [[E _]|[_ N2]]; [congruence|].
  destruct (LT_total a b) as [T|[T|(T1 & T2 & T3)]]; try contradiction.
  pose proof (id_kind a b Ha Hb T1) as EK. unfold ck_ok, hi' in *. rewrite EK in *. destruct (ck_k b); now rewrite T2, ?T3.
Qed.
End Checkers.

(** ** C37 *)
Theorem C37_checker_range :
  forall (F D : Type) (ar : arith F D), linear ar -> forall t k lo hi,
    (range_ok ar k lo hi <-> ck_new ar t k lo hi = Ok (mkChecker t k lo hi)) /\
    (~ range_ok ar k lo hi <-> ck_new ar t k lo hi = Throw) /\
    forall x, ck_ok ar (mkChecker t k lo hi) x = true <-> in_range ar (mkChecker t k lo hi) x.
Proof.
  intros F D ar L t k lo hi. destruct (ck_new_iff ar L t k lo hi) as [H1 H2].
  split; [tauto|]. split; [tauto|]. intros x. apply ck_ok_iff, L.
Qed.
Print Assumptions C37_checker_range.

(** The thresholds the converter uses: (lo, mid] and (mid, infinity) split
    (lo, infinity); [lo, mid], (mid, hi) and the complement split everything. *)
Theorem C37_adjacent_ranges :
  forall (F D : Type) (ar : arith F D), linear ar -> forall t lo mid hi x, lt ar lo mid -> lt ar mid hi ->
    let a := ck_ok ar (mkChecker t ExclIncl lo mid) x in
    let b := ck_ok ar (mkChecker t ExclNo mid mid) x in
    let c := ck_ok ar (mkChecker t InclIncl lo mid) x in
    let d := ck_ok ar (mkChecker t ExclExcl mid hi) x in
    (lt ar lo (absD ar x) <-> xorb a b = true) /\ (a && b = false) /\
    (le ar lo (absD ar x) /\ lt ar (absD ar x) hi <-> xorb c d = true) /\ (c && d = false).
Proof.
  intros F D ar L t lo mid hi x H1 H2. cbn [ck_ok ck_k ck_lo ck_hi]. cbv zeta.
  set (v := absD ar x). unfold ck_ok; cbn [ck_k ck_lo ck_hi]. fold v. rewrite !(ln_le ar L). unfold le, lt in *.
  assert (T : forall p q, ltD ar p q = true -> ltD ar q p = false) by (intros; now apply lt_asym).
  destruct (ltD ar mid v) eqn:E1.
  - rewrite (ln_trans ar L _ _ _ H1 E1), (T _ _ (ln_trans ar L _ _ _ H1 E1)). cbn.
    destruct (ltD ar v hi) eqn:E2; cbn; intuition (try discriminate).
  - assert (HV : ltD ar v hi = true).
    { destruct (ln_total ar L mid v) as [E|[<-|E]]; [congruence|exact H2|exact (ln_trans ar L _ _ _ E H2)]. }
    rewrite HV. cbn [negb andb]. rewrite !andb_true_r, !andb_false_r, !xorb_false_r.
    destruct (ln_total ar L lo v) as [E|[E|E]].
    + rewrite E, (T _ _ E). cbn. intuition.
    + rewrite E, (ln_irrefl ar L). cbn. intuition (try discriminate).
    + rewrite E, (T _ _ E). cbn. intuition (try discriminate). subst lo. rewrite (ln_irrefl ar L) in E. discriminate.
Qed.
Print Assumptions C37_adjacent_ranges.

Definition zchk : arith Z Z := {|
  f0 := 0%Z; d0 := 0%Z; fnz := fun x => negb (Z.eqb x 0); dnz := fun x => negb (Z.eqb x 0);
  toD := fun x => x; toF := fun x => x;
  addF := Z.add; subF := Z.sub; oppF := Z.opp; addD := Z.add; subD := Z.sub; oppD := Z.opp;
  fmaF := fun c x y => (c + x * y)%Z; fmaD := fun c x y => (c + x * y)%Z; dotF := fun _ => 0%Z; dotD := fun _ => 0%Z;
  absD := Z.abs; ltD := Z.ltb; leD := Z.leb; quotD := fun n m => (Z.of_nat n / Z.of_nat m)%Z |}.
Lemma zchk_linear : linear zchk.
Proof.
  constructor; cbn; intros.
  - apply Z.ltb_irrefl.
  - rewrite Z.ltb_lt in *. lia.
  - rewrite !Z.ltb_lt. lia.
  - destruct (Z.leb_spec x y), (Z.ltb_spec y x); cbn; auto; lia.
Qed.
Example C37_nonvacuous : linear zchk /\ lt zchk 1%Z 3%Z /\ lt zchk 3%Z 5%Z /\
  ck_ok zchk (mkChecker TTdouble ExclIncl 1%Z 3%Z) (-3)%Z = true /\ ck_ok zchk (mkChecker TTdouble ExclNo 3%Z 3%Z) (-3)%Z = false /\
  ck_new zchk TTdouble ExclIncl 3%Z 3%Z = Throw.
Proof. split; [exact zchk_linear|]. repeat split. Qed.

(** ** C38 *)
Theorem C38_checker_order :
  forall (F D : Type) (ar : arith F D), linear ar ->
    strict_weak (fun c : checker D => ck_t c = TTdouble) (ck_lt ar) /\
    forall a b, ck_t a = TTdouble -> ck_t b = TTdouble -> ck_lt ar a b = Ok false -> ck_lt ar b a = Ok false ->
      forall x, ck_ok ar a x = ck_ok ar b x.
Proof.
  intros F D ar L. split; [|intros a b; now apply equiv_same].
  assert (F1 : forall a b, ck_t a = TTdouble -> ck_t b = TTdouble -> ck_lt ar a b = Ok false -> ~ LT ar a b).
  { intros a b Ha Hb H. destruct (ck_lt_spec ar L a b Ha Hb) as [[E _]|[_ N]]; [congruence|auto]. }
  assert (F2 : forall a b, ck_t a = TTdouble -> ck_t b = TTdouble -> ~ LT ar a b -> ck_lt ar a b = Ok false).
  { intros a b Ha Hb H. destruct (ck_lt_spec ar L a b Ha Hb) as [[_ N]|[E _]]; [contradiction|auto]. }
  assert (F3 : forall a b, ck_t a = TTdouble -> ck_t b = TTdouble -> ck_lt ar a b = Ok true <-> LT ar a b).
  { intros a b Ha Hb. destruct (ck_lt_spec ar L a b Ha Hb) as [[E N]|[E N]]; rewrite E; split; auto; try discriminate; contradiction. }
  constructor.
  - intros a b Ha Hb. destruct (ck_lt_spec ar L a b Ha Hb) as [[E _]|[E _]]; eauto.
  - intros a Ha. apply F2; auto. apply LT_irrefl, L.
  - intros a b c Ha Hb Hc. rewrite !F3 by auto. apply LT_trans, L.
  - intros a b c Ha Hb Hc H1 H2 H3 H4. apply F1 in H1, H2, H3, H4; auto.
    destruct (LT_total ar L a b) as [T|[T|(A1 & A2 & A3)]]; try contradiction.
    destruct (LT_total ar L b c) as [T|[T|(B1 & B2 & B3)]]; try contradiction.
    split; apply F2; auto; unfold LT, lt in *; rewrite A1, B1, A2, B2, A3, B3, !(ln_irrefl ar L);
      intros [H|(_ & [H|[_ H]])]; try discriminate; lia.
Qed.
Print Assumptions C38_checker_order.
Example C38_nonvacuous : ck_lt zchk (mkChecker TTdouble ExclIncl 1%Z 3%Z) (mkChecker TTdouble ExclIncl 1%Z 4%Z) = Ok true /\
  ck_lt zchk (mkChecker TTdouble ExclNo 9%Z 0%Z) (mkChecker TTdouble ExclIncl 1%Z 4%Z) = Ok true.
Proof. split; reflexivity. Qed.

(** Checkers of other threshold types (Matrix<Sparse,float> uses float by
    default) all have the id 4: comparing two of different classes reads one
    object as the other class. *)
Theorem C38_unlisted_types_refuted :
  forall (F D : Type) (ar : arith F D) t u k l lo hi lo2 hi2, t <> TTdouble -> u <> TTdouble -> (t <> u \/ k <> l) ->
    ck_lt ar (mkChecker t k lo hi) (mkChecker u l lo2 hi2) = UB DeadObject.
Proof.
  intros F D ar t u k l lo hi lo2 hi2 Ht Hu H. unfold ck_lt, ck_id; cbn [ck_t ck_k].
  destruct t; [congruence| |]; (destruct u; [congruence| |]); cbn; try reflexivity;
    destruct H as [H|H]; try congruence; destruct k, l; try congruence; reflexivity.
Qed.

(** A NaN threshold passes the constructor and makes the order useless: it is
    equivalent to every other threshold.  Here double is Z plus NaN ([None]). *)
Definition nanb (f : Z -> Z -> bool) (a b : option Z) : bool := match a, b with Some x, Some y => f x y | _, _ => false end.
Definition nan_ar : arith Z (option Z) := {|
  f0 := 0%Z; d0 := Some 0%Z; fnz := fun x => negb (Z.eqb x 0); dnz := fun x => match x with Some v => negb (Z.eqb v 0) | None => true end;
  toD := fun x => Some x; toF := fun x => match x with Some v => v | None => 0%Z end;
  addF := Z.add; subF := Z.sub; oppF := Z.opp; addD := fun a _ => a; subD := fun a _ => a; oppD := fun a => a;
  fmaF := fun c x y => (c + x * y)%Z; fmaD := fun c _ _ => c; dotF := fun _ => 0%Z; dotD := fun _ => None;
  absD := option_map Z.abs; ltD := nanb Z.ltb; leD := nanb Z.leb; quotD := fun n m => Some (Z.of_nat n / Z.of_nat m)%Z |}.
Theorem C38_nan_threshold_refuted :
  exists a b c, ck_new nan_ar TTdouble ExclNo None (Some 0%Z) = Ok b /\
    ck_new nan_ar TTdouble ExclNo (Some 1%Z) (Some 0%Z) = Ok a /\ ck_new nan_ar TTdouble ExclNo (Some 2%Z) (Some 0%Z) = Ok c /\
    ck_equiv nan_ar a b = Ok true /\ ck_equiv nan_ar b c = Ok true /\ ck_equiv nan_ar a c = Ok false /\
    ck_ok nan_ar a (Some 5%Z) = true /\ ck_ok nan_ar b (Some 5%Z) = false.
Proof. do 3 eexists. repeat split. Qed.

(** ** C35 and C36 *)
Section Caches.
Context {F D : Type} (ar : arith F D) (L : linear ar) {C N : Type}.
Context (norm_of : C -> N) (count_of : (D -> bool) -> C -> nat) (moved : C -> C).
Notation step := (step ar norm_of count_of moved).
Notation run := (run ar norm_of count_of moved).

Ltac cases := unfold vset, eset in *; repeat match goal with
  | H : context [?a =? ?b] |- _ => destruct (Nat.eqb_spec a b); subst
  | |- context [?a =? ?b] => destruct (Nat.eqb_spec a b); subst
  end; try congruence.

(** *** norm *)
Definition norm_inv (a : nat -> bool) (e : env (D:=D) (C:=C) (N:=N)) : Prop :=
  forall v, match o_norm (e v) with None => True | Some n => a v = true /\ n = norm_of (o_c (e v)) end.
Definition norm_out (o : out D C N) : Prop := match o with ONorm n c => n = norm_of c | _ => True end.

Lemma norm_step a e x e' o : quiet a x -> norm_inv a e -> step e x = Ok (e', o) ->
  norm_inv (asked_norm a x) e' /\ Forall norm_out o.
Proof.
  intros Q I E. destruct x; cbn in *; unfold o_move, o_massign, o_swap, o_getNorm in E.
  - injection E as <- <-. split; [|constructor]. intros w. specialize (I w). cases; cbn; auto.
  - injection E as <- <-. split; [|constructor]. intros w. pose proof (I v) as Iv. specialize (I w). cases; cbn.
    destruct (o_norm (e v)); [destruct Iv; congruence|auto].
  - injection E as <- <-. split; [|constructor]. intros w. pose proof (I src) as Iv. specialize (I w). cases; cbn; auto.
  - destruct Q as [Q NE]. injection E as <- <-. split; [|constructor]. intros w. pose proof (I src) as Iv. specialize (I w). cases; cbn; auto.
    destruct (o_norm (e src)); [destruct Iv; congruence|auto].
  - destruct Q as (Q1 & Q2 & NE). injection E as <- <-. split; [|constructor]. intros w. pose proof (I src) as Is. pose proof (I v) as Iv.
    specialize (I w). cases; cbn.
    + destruct (o_norm (e v)); [destruct Iv; congruence|auto].
    + destruct (o_norm (e src)); [destruct Is; congruence|auto].
  - destruct Q as (Q1 & Q2 & NE). injection E as <- <-. split; [|constructor]. intros u. pose proof (I w) as Is. pose proof (I v) as Iv.
    specialize (I u). cases; cbn.
    + destruct (o_norm (e w)); [destruct Is; congruence|auto].
    + destruct (o_norm (e v)); [destruct Iv; congruence|auto].
  - destruct (o_norm (e v)) as [n|] eqn:EN; injection E as <- <-.
    + pose proof (I v) as Iv. rewrite EN in Iv. split; [|constructor; [apply Iv|constructor]].
      intros w. specialize (I w). cases. rewrite EN. tauto.
    + split; [|constructor; [reflexivity|constructor]]. intros w. specialize (I w). cases; cbn; auto.
  - unfold o_getCount in E. destruct (map_find ar k (o_occ (e v))) as [[n|]| | | |]; cbn in E; try discriminate;
      injection E as <- <-; (split; [|constructor; [exact Logic.I|constructor]]); intros w; pose proof (I v) as Iv; specialize (I w); cases; cbn; auto.
  - injection E as <- <-. split; [|constructor]. intros w. pose proof (I v) as Iv. specialize (I w). cases; cbn; auto.
Qed.

Lemma norm_run l : forall a e e' o, disciplined asked_norm a l -> norm_inv a e -> run e l = Ok (e', o) -> Forall norm_out o.
Proof.
  induction l as [|x l IH]; intros a e e' o Q I E; cbn in E.
  - injection E as <- <-. constructor.
  - destruct Q as [Q1 Q2]. destruct (step e x) as [[e1 o1]| | | |] eqn:E1; try discriminate. cbn in E.
    destruct (run e1 l) as [[e2 o2]| | | |] eqn:E2; try discriminate. cbn in E. injection E as <- <-.
    destruct (norm_step a e x e1 o1 Q1 I E1) as [I1 O1]. apply Forall_app. split; [exact O1|]. eapply IH; eauto.
Qed.

(** *** occupation *)
Definition occ_entry (c : C) (kn : checker D * nat) : Prop :=
  ck_t (fst kn) = TTdouble /\ snd kn = count_of (ck_ok ar (fst kn)) c.
Definition occ_inv (a : nat -> bool) (e : env (D:=D) (C:=C) (N:=N)) : Prop :=
  forall v, Forall (occ_entry (o_c (e v))) (o_occ (e v)) /\ (a v = false -> o_occ (e v) = []).
Definition occ_out (o : out D C N) : Prop := match o with OCount n k c => n = count_of (ck_ok ar k) c | _ => True end.

Hypothesis count_ext : forall p q c, (forall x, p x = q x) -> count_of p c = count_of q c.

Lemma map_find_spec k l c : ck_t k = TTdouble -> Forall (occ_entry c) l ->
  map_find ar k l = Ok None \/ map_find ar k l = Ok (Some (count_of (ck_ok ar k) c)).
Proof.
  intros Hk. induction 1 as [|[k' n] l [H1 H2] H IH]; [now left|]. cbn in H1, H2. cbn [map_find]. unfold ck_equiv.
  destruct (ck_lt_spec ar L k k' Hk H1) as [[E1 _]|[E1 _]]; rewrite E1; cbn [bind]; [exact IH|].
  destruct (ck_lt_spec ar L k' k H1 Hk) as [[E2 _]|[E2 _]]; rewrite E2; cbn [bind negb]; [exact IH|].
  right. rewrite H2. do 2 f_equal. apply count_ext. intros x. now apply (equiv_same ar L k' k).
Qed.

Lemma occ_step a e x : quiet a x -> listed_op x -> occ_inv a e ->
  exists e' o, step e x = Ok (e', o) /\ occ_inv (asked_count a x) e' /\ Forall occ_out o.
Proof.
  assert (NIL : forall c, Forall (occ_entry c) []) by constructor.
  intros Q Li I. destruct x; cbn in *; unfold o_move, o_massign, o_swap, o_getNorm in *.
  - eexists _, _; split; [reflexivity|]. split; [|constructor]. intros w. specialize (I w). cases; cbn; auto.
  - eexists _, _; split; [reflexivity|]. split; [|constructor]. intros w. pose proof (I v) as [I1 I2]. specialize (I w). cases; cbn; auto.
    rewrite I2 by auto. auto.
  - eexists _, _; split; [reflexivity|]. split; [|constructor]. intros w. pose proof (I src) as Is. specialize (I w). cases; cbn; auto.
  - destruct Q as [Q NE]. eexists _, _; split; [reflexivity|]. split; [|constructor]. intros w. pose proof (I src) as [I1 I2]. specialize (I w). cases; cbn; auto.
    rewrite I2 by auto. auto.
  - destruct Q as (Q1 & Q2 & NE). eexists _, _; split; [reflexivity|]. split; [|constructor]. intros w.
    pose proof (I src) as [I1 I2]. pose proof (I v) as [I3 I4]. specialize (I w). cases; cbn; auto.
    + rewrite I4 by auto. auto.
    + rewrite I2 by auto. auto.
  - destruct Q as (Q1 & Q2 & NE). eexists _, _; split; [reflexivity|]. split; [|constructor]. intros u.
    pose proof (I w) as [I1 I2]. pose proof (I v) as [I3 I4]. specialize (I u). cases; cbn; auto.
    + rewrite I2 by auto. auto.
    + rewrite I4 by auto. auto.
  - pose proof (I v) as Iv. destruct (o_norm (e v)); (eexists _, _; split; [reflexivity|]);
      (split; [|constructor; [exact Logic.I|constructor]]); intros w; specialize (I w); cases; cbn; auto.
  - pose proof (I v) as [I1 I2]. unfold o_getCount. destruct (map_find_spec k _ _ Li I1) as [E|E]; rewrite E; cbn [bind];
      (eexists _, _; split; [reflexivity|]); (split; [|constructor; [reflexivity|constructor]]); intros w; pose proof (I w) as Iw; cases; cbn; auto.
    + split; [constructor; [split; [exact Li|reflexivity]|exact I1]|discriminate].
    + split; [exact I1|discriminate].
  - eexists _, _; split; [reflexivity|]. split; [|constructor]. intros w. specialize (I w). cases; cbn; auto.
Qed.

Lemma occ_run l : forall a e, disciplined asked_count a l -> Forall listed_op l -> occ_inv a e ->
  exists e' o, run e l = Ok (e', o) /\ Forall occ_out o.
Proof.
  induction l as [|x l IH]; intros a e Q Li I; cbn [run Check_Model.run].
  - eexists _, _. split; [reflexivity|constructor].
  - destruct Q as [Q1 Q2]. inversion Li as [|? ? L1 L2]; subst.
    destruct (occ_step a e x Q1 L1 I) as (e1 & o1 & E1 & I1 & O1).
    destruct (IH _ e1 Q2 L2 I1) as (e2 & o2 & E2 & O2).
    rewrite E1. cbn [bind]. rewrite E2. cbn [bind]. eexists _, _. split; [reflexivity|]. apply Forall_app. auto.
Qed.
End Caches.

(** C35.  Any program that changes no object whose norm (or the norm of the
    object it was copied from) has been asked for: every norm printed is that of
    the contents at that moment. *)
Theorem C35_norm_of_current_contents :
  forall (F D : Type) (ar : arith F D) (C N : Type) (norm_of : C -> N) count_of moved (empty : C) (l : list (op D C)) e o,
    disciplined asked_norm (fun _ => false) l ->
    run ar norm_of count_of moved (start empty) l = Ok (e, o) ->
    forall n c, In (ONorm n c) o -> n = norm_of c.
Proof.
  intros F D ar C N norm_of count_of moved empty l e o Q E n c HI.
  pose proof (norm_run ar norm_of count_of moved l _ (start empty) e o Q) as H.
  assert (HI0 : norm_inv norm_of (fun _ => false) (start (D:=D) (N:=N) empty)) by (intros v; exact Logic.I).
  specialize (H HI0 E). rewrite Forall_forall in H. exact (H _ HI).
Qed.
Print Assumptions C35_norm_of_current_contents.

(** Contents: a list of numbers; norm one. *)
Definition l1 (c : list Z) : Z := fold_left (fun s x => (s + Z.abs x)%Z) c 0%Z.
Definition lcount (p : Z -> bool) (c : list Z) : nat := length (filter p c).
Notation zrun := (run zchk l1 lcount (fun _ => []) (start [])).
Definition zgt (t : Z) : checker Z := mkChecker TTdouble ExclNo t 0%Z.

Example C35_nonvacuous :
  let p := [New 0 [1; -2]%Z; Modify 0 (fun c => 5%Z :: c); GetNorm 0; Copy 1 0; GetNorm 1; GetNorm 0] : list (op Z (list Z)) in
  disciplined asked_norm (fun _ => false) p /\ exists e, zrun p = Ok (e, [ONorm 8 [5; 1; -2]; ONorm 8 [5; 1; -2]; ONorm 8 [5; 1; -2]]%Z).
Proof. cbn zeta. split; [cbn; auto 10|]. eexists. reflexivity. Qed.

(** Without the restriction the norm is stale: after a write, a move assignment
    or a swap the norm asked before is reported. *)
Theorem C35_stale_norm_refuted :
  exists e o, zrun [New 0 [1; -2]%Z; GetNorm 0; Modify 0 (fun _ => [9]%Z); GetNorm 0;
                    New 1 [7]%Z; MoveAssign 0 1; GetNorm 0;
                    New 2 [4]%Z; Swap 0 2; GetNorm 0; GetNorm 2] = Ok (e, o) /\
    o = [ONorm 3 [1; -2]; ONorm 3 [9]; ONorm 3 [7]; ONorm 3 [4]; ONorm 7 [7]]%Z.
Proof. eexists _, _. split; reflexivity. Qed.

(** In general, from any state: whatever is done to a matrix whose norm was asked,
    or to a copy of it, the old norm is reported for the new contents. *)
Theorem C35_any_change_refuted :
  forall (F D : Type) (ar : arith F D) (C N : Type) (norm_of : C -> N) count_of moved (e : env) s v (f : C -> C),
    (exists e' n c, run (D:=D) ar norm_of count_of moved e [GetNorm s; Modify s f; GetNorm s] = Ok (e', [ONorm n c; ONorm n (f c)])) /\
    (exists e' n c, run (D:=D) ar norm_of count_of moved e [GetNorm s; Copy v s; Modify v f; GetNorm v] = Ok (e', [ONorm n c; ONorm n (f c)])) /\
    (s <> v -> exists e' n c, run (D:=D) ar norm_of count_of moved e [GetNorm s; MoveAssign s v; GetNorm s] =
       Ok (e', [ONorm n c; ONorm n (o_c (e v))])) /\
    (s <> v -> exists e' n c, run (D:=D) ar norm_of count_of moved e [GetNorm s; Swap s v; GetNorm s] =
       Ok (e', [ONorm n c; ONorm n (o_c (e v))])) /\
    (* a move construction starts afresh *)
    (s <> v -> exists e' n c, run (D:=D) ar norm_of count_of moved e [GetNorm s; MoveNew v s; Modify v f; GetNorm v] =
       Ok (e', [ONorm n c; ONorm (norm_of (f c)) (f c)])).
Proof.
  intros F D ar C N norm_of count_of moved e s v f.
  repeat match goal with |- _ /\ _ => split end; intros; unfold run, step, eset, o_getNorm, o_copy, o_modify, o_massign, o_swap, o_move, o_new;
    rewrite ?Nat.eqb_refl; destruct (o_norm (e s)) as [n|] eqn:En; cbn [bind app fst snd o_c o_norm o_occ];
    repeat (rewrite ?Nat.eqb_refl, ?En; cbn [bind app fst snd o_c o_norm o_occ]);
    repeat match goal with |- context [?a =? ?b] => destruct (Nat.eqb_spec a b); subst; try congruence end;
    rewrite ?En; cbn [bind app fst snd o_c o_norm o_occ]; try (do 3 eexists; reflexivity);
    unfold o_modify; cbn [o_norm o_c]; rewrite En; do 3 eexists; reflexivity.
Qed.
Print Assumptions C35_any_change_refuted.

(** C36.  Any program with double checkers that calls reset() before changing an
    object whose occupation has been asked for runs without undefined behaviour
    and every count printed is that of the contents at that moment. *)
Theorem C36_count_of_current_contents :
  forall (F D : Type) (ar : arith F D), linear ar ->
  forall (C N : Type) (norm_of : C -> N) count_of moved (empty : C) (l : list (op D C)),
    (forall p q c, (forall x, p x = q x) -> count_of p c = count_of q c) ->
    disciplined asked_count (fun _ => false) l -> Forall listed_op l ->
    exists e o, run ar norm_of count_of moved (start empty) l = Ok (e, o) /\
      forall n k c, In (OCount n k c) o -> n = count_of (ck_ok ar k) c.
Proof.
  intros F D ar L C N norm_of count_of moved empty l Hext Q Li.
  destruct (occ_run ar L norm_of count_of moved Hext l _ (start empty) Q Li) as (e & o & E & O).
  { intros v. split; [constructor|reflexivity]. }
  exists e, o. split; [exact E|]. intros n k c HI. rewrite Forall_forall in O. exact (O _ HI).
Qed.
Print Assumptions C36_count_of_current_contents.

Example C36_nonvacuous :
  let p := [New 0 [1; -2]%Z; GetCount 0 (zgt 1); GetCount 0 (zgt 0); GetCount 0 (zgt 1); Reset 0; Modify 0 (fun c => 5%Z :: c); GetCount 0 (zgt 1)] : list (op Z (list Z)) in
  disciplined asked_count (fun _ => false) p /\ Forall listed_op p /\
  exists e, zrun p = Ok (e, [OCount 1 (zgt 1) [1; -2]; OCount 2 (zgt 0) [1; -2]; OCount 1 (zgt 1) [1; -2]; OCount 2 (zgt 1) [5; 1; -2]]%Z).
Proof. cbn zeta. split; [cbn; auto 10|]. split; [repeat constructor|]. eexists. reflexivity. Qed.

(** Without reset() the count is stale (and a sparse matrix built from it has too
    few cells, C15_stale_count_refuted). *)
Theorem C36_stale_count_refuted :
  exists e o, zrun [New 0 [1; -2]%Z; GetCount 0 (zgt 1); Modify 0 (fun c => 5%Z :: c); GetCount 0 (zgt 1)] = Ok (e, o) /\
    o = [OCount 1 (zgt 1) [1; -2]; OCount 1 (zgt 1) [5; 1; -2]]%Z.
Proof. eexists _, _. split; reflexivity. Qed.

(** In general: a count asked before a change, or before a copy is changed, is
    reported for the new contents. *)
Theorem C36_any_change_refuted :
  forall (F D : Type) (ar : arith F D), linear ar ->
  forall (C N : Type) (norm_of : C -> N) count_of moved (e : env) s v k (c : C) (f : C -> C), ck_t k = TTdouble ->
    let n := count_of (ck_ok ar k) c in
    (exists e', run ar norm_of count_of moved e [New s c; GetCount s k; Modify s f; GetCount s k] = Ok (e', [OCount n k c; OCount n k (f c)])) /\
    (exists e', run ar norm_of count_of moved e [New s c; GetCount s k; Copy v s; Modify v f; GetCount v k] = Ok (e', [OCount n k c; OCount n k (f c)])) /\
    (* a move construction starts afresh, reset() empties *)
    (exists e', run ar norm_of count_of moved e [New s c; GetCount s k; Modify s f; Reset s; GetCount s k] =
       Ok (e', [OCount n k c; OCount (count_of (ck_ok ar k) (f c)) k (f c)])).
Proof.
  intros F D ar L C N norm_of count_of moved e s v k c f Hk n.
  assert (Q : ck_equiv ar k k = Ok true).
  { assert (H : ck_lt ar k k = Ok false).
    { destruct (ck_lt_spec ar L k k Hk Hk) as [[_ X]|[X _]]; [|exact X]. exfalso. exact (LT_irrefl ar L k X). }
    unfold ck_equiv. rewrite !H. reflexivity. }
  repeat match goal with |- _ /\ _ => split end; unfold run, step, eset, o_getCount, o_copy, o_modify, o_reset, o_new; cbn [bind];
    repeat (rewrite ?Nat.eqb_refl; cbn [bind app fst snd o_c o_norm o_occ map_find]; rewrite ?Q); eexists; reflexivity.
Qed.
Print Assumptions C36_any_change_refuted.
