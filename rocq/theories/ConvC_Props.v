(** C79: the cached counts do not change what a conversion does. *)
From Verif Require Import Base BaseLemmas Dense_Model Dense_Spec Dense_Proofs Sparse_Model Mult_Model Dyn_Model Check_Model Check_Spec
  Check_Props Dyn_Props ConvC_Model.

(** [k] and [k'] are the same key for the map only if they accept the same values. *)
Definition keys_agree {F D} (ar : arith F D) (P : checker D -> Prop) : Prop :=
  forall k k', P k -> P k' -> ck_t k = TTdouble /\
    (ck_lt ar k k' = Ok false -> ck_lt ar k' k = Ok false -> forall x, ck_ok ar k x = ck_ok ar k' x).

(** Every recorded count is that of the current contents, for a key in [P]. *)
Definition counts_true {F D} (ar : arith F D) (P : checker D -> Prop) (m : dense D) (c : counts (D := D)) : Prop :=
  Forall (fun e => P (fst e) /\ d_count (ck_ok ar (fst e)) m = Ok (snd e)) c.

Section Proofs.
Context {F D : Type} (ar : arith F D) (P : checker D -> Prop).
Hypothesis HP : keys_agree ar P.

Lemma d_count_ext (p q : D -> bool) (m : dense D) : (forall x, p x = q x) -> d_count p m = d_count q m.
Proof.
  intros H. unfold d_count. apply bind_ext. intros ads _. apply foldM_ext. intros a s _. apply bind_ext. intros v _. now rewrite H.
Qed.

Lemma ck_lt_total (a b : checker D) : ck_t a = TTdouble -> ck_t b = TTdouble -> exists x, ck_lt ar a b = Ok x.
Proof.
  intros Ha Hb. unfold ck_lt, ck_id. rewrite Ha, Hb. destruct (ck_k a), (ck_k b); cbn; eexists; reflexivity.
Qed.

Lemma map_find_true k m c : P k -> counts_true ar P m c ->
  exists r, map_find ar k c = Ok r /\ (forall n, r = Some n -> d_count (ck_ok ar k) m = Ok n).
Proof.
  intros Hk HC. induction HC as [|[k' n'] t [Hk' E'] HC IH]; cbn [map_find].
  - exists None. split; [reflexivity|]. discriminate.
  - cbn [fst snd] in *. pose proof (HP k k' Hk Hk') as (Tk & Ag). pose proof (HP k' k Hk' Hk) as (Tk' & _).
    destruct (ck_lt_total k k' Tk Tk') as (x & Ex). destruct (ck_lt_total k' k Tk' Tk) as (y & Ey).
    unfold ck_equiv. rewrite Ex. cbn [bind]. destruct x; [exact IH|]. rewrite Ey. cbn [bind negb]. destruct y; cbn [negb]; [exact IH|].
    exists (Some n'). split; [reflexivity|]. intros n En. injection En as <-. rewrite <- E'. apply d_count_ext. auto.
Qed.

(** Running with the map relates to running without it: same outcome, map still true. *)
Definition same {X Y} (m : dense D) (h : Y -> X) (a : res (counts * Y)) (b : res X) : Prop :=
  match a with
  | Ok (c, y) => b = Ok (h y) /\ counts_true ar P m c
  | Throw => b = Throw | AssertFail => b = AssertFail | UB u => b = UB u | Diverge => b = Diverge
  end.

Lemma same_bind {X Y X2 Y2} m (h : Y -> X) (h2 : Y2 -> X2) (a : res (counts * Y)) (b : res X) f g :
  same m h a b -> (forall c y, counts_true ar P m c -> same m h2 (f (c, y)) (g (h y))) -> same m h2 (bind a f) (bind b g).
Proof.
  intros H Hf. destruct a as [[c y]| | | |]; cbn in *; try (rewrite H; reflexivity).
  destruct H as [-> HC]. cbn. now apply Hf.
Qed.
Lemma same_pure {X X2 Y2} m (h2 : Y2 -> X2) (a : res X) f g :
  (forall x, same m h2 (f x) (g x)) -> same m h2 (bind a f) (bind a g).
Proof. intros H. destruct a; cbn; auto. Qed.
Lemma same_ret {X Y} m (h : Y -> X) c y x : counts_true ar P m c -> x = h y -> same m h (Ok (c, y)) (Ok x).
Proof. intros HC ->. cbn. auto. Qed.
Lemma same_asked k m c : P k -> counts_true ar P m c -> same m (fun n => n) (asked_nb ar k m c) (d_count (ck_ok ar k) m).
Proof.
  intros Hk HC. unfold asked_nb. destruct (map_find_true k m c Hk HC) as (r & E & Hr). rewrite E. cbn [bind].
  destruct r as [n|]; [rewrite (Hr n eq_refl); apply same_ret; auto|].
  destruct (d_count (ck_ok ar k) m) eqn:Ed; cbn; auto. split; auto. constructor; auto.
Qed.

Lemma gt_new_ck t : gt_new ar t = do k <- new_gt ar t; Ok (ck_ok ar k).
Proof. unfold gt_new, new_gt, ck_new. destruct (ltD ar t (d0 ar)); reflexivity. Qed.
Lemma range_new_ck lo hi : range_new ar lo hi = do k <- new_range ar lo hi; Ok (ck_ok ar k).
Proof.
  unfold range_new, new_range, ck_new. destruct (ltD ar lo (d0 ar)); [reflexivity|]. destruct (ltD ar hi (d0 ar)); [reflexivity|].
  destruct (leD ar hi lo); reflexivity.
Qed.
Lemma bind_bind {A B C} (a : res A) (f : A -> res B) (g : B -> res C) : bind (bind a f) g = bind a (fun x => bind (f x) g).
Proof. destruct a; reflexivity. Qed.

Context (th : threshold D).
Hypothesis Pd : P (mkChecker TTdouble ExclNo (sigD th) (d0 ar)).
Hypothesis Pf : P (mkChecker TTdouble ExclNo (sigF th) (d0 ar)).
Hypothesis Pr : P (mkChecker TTdouble ExclIncl (sigD th) (sigF th)).

Lemma new_gt_eq t k : new_gt ar t = Ok k -> k = mkChecker TTdouble ExclNo t (d0 ar).
Proof. unfold new_gt, ck_new. destruct (ltD ar t (d0 ar)); [discriminate|]. intros E. now injection E. Qed.
Lemma new_range_eq lo hi k : new_range ar lo hi = Ok k -> k = mkChecker TTdouble ExclIncl lo hi.
Proof.
  unfold new_range, ck_new. destruct (ltD ar lo (d0 ar)); [discriminate|]. destruct (ltD ar hi (d0 ar)); [discriminate|].
  destruct (leD ar hi lo); [discriminate|]. intros E. now injection E.
Qed.
Lemma same_new {X Y} m (h : Y -> X) (a : res (checker D)) f g :
  (forall k, a = Ok k -> same m h (f k) (g k)) -> same m h (bind a f) (bind a g).
Proof. intros H. destruct a; cbn; auto. Qed.

Lemma is_convertible_same m t c : counts_true ar P m c ->
  same m (fun b => b) (is_convertible_c ar th m t c) (is_convertible ar th m t).
Proof.
  intros HC. unfold is_convertible_c, is_convertible, occupation. rewrite !gt_new_ck, bind_bind.
  apply same_new. intros k Ek. apply new_gt_eq in Ek. subst k. cbn [bind]. rewrite bind_bind.
  eapply same_bind; [apply same_asked; auto|]. intros c1 nd HC1. cbn [bind].
  destruct (negb _); [apply same_ret; auto|].
  rewrite bind_bind. apply same_new. intros k Ek. apply new_gt_eq in Ek. subst k. cbn [bind]. rewrite bind_bind.
  eapply same_bind; [apply same_asked; auto|]. intros c2 nf HC2. cbn [bind]. apply same_ret; auto.
Qed.

Lemma leaf_same t k m c : (forall e, t = TS e -> P k) -> counts_true ar P m c ->
  same m (fun l => l) (leaf_chk_c ar t k m c) (leaf_chk ar t (ck_ok ar k) m).
Proof.
  intros Hk HC. destruct t as [|e|e]; cbn [leaf_chk_c].
  - cbn. auto.
  - destruct e; cbn [leaf_chk]; unfold s_of_dense, rmap; rewrite bind_bind;
      (eapply same_bind; [apply same_asked; eauto|]; intros c1 n HC1; apply same_pure; intros s; apply same_ret; auto).
  - destruct e; cbn [leaf_chk]; unfold rmap.
    + destruct (dense_chk (toF ar) (f0 ar) (ck_ok ar k) m); cbn; auto.
    + destruct (dense_chk (fun x => x) (d0 ar) (ck_ok ar k) m); cbn; auto.
Qed.

Lemma convert_to_same exc dbg m t c : counts_true ar P m c ->
  same m (fun x => x) (convert_to_c ar exc dbg th m t c) (convert_to ar exc dbg th m t).
Proof.
  intros HC. destruct t as [[|[|]|e]|t1 t2]; cbn [convert_to_c convert_to].
  - cbn. auto.
  - rewrite range_new_ck, bind_bind. apply same_new. intros k Ek. apply new_range_eq in Ek. subst k. cbn [bind]. unfold rmap.
    eapply same_bind; [apply leaf_same; auto|]. intros c1 l HC1. cbn [fst snd]. apply same_ret; auto.
  - rewrite gt_new_ck, bind_bind. apply same_new. intros k Ek. apply new_gt_eq in Ek. subst k. cbn [bind]. unfold rmap.
    eapply same_bind; [apply leaf_same; auto|]. intros c1 l HC1. cbn [fst snd]. apply same_ret; auto.
  - rewrite gt_new_ck, bind_bind. apply same_new. intros k Ek. cbn [bind]. unfold rmap.
    eapply same_bind; [apply leaf_same; auto; discriminate|]. intros c1 l HC1. cbn [fst snd]. apply same_ret; auto.
  - rewrite gt_new_ck, bind_bind. apply same_new. intros k Ek. apply new_gt_eq in Ek. subst k. cbn [bind].
    eapply same_bind; [apply leaf_same; auto|]. intros c1 l1 HC1. cbn [fst snd].
    rewrite range_new_ck, bind_bind. apply same_new. intros k Ek. apply new_range_eq in Ek. subst k. cbn [bind].
    eapply same_bind; [apply leaf_same; auto|]. intros c2 l2 HC2. cbn [fst snd].
    destruct (mm_new _ _ _ _ _ _); cbn; auto.
Qed.

Lemma convert_same exc dbg m c : counts_true ar P m c ->
  same m (fun x => x) (convert_c ar exc dbg th m c) (convert ar exc dbg th m).
Proof.
  unfold convert_c, convert. generalize type_list as l. intros l. revert c. induction l as [|t [|t' r] IH]; intros c HC.
  - cbn. reflexivity.
  - cbn [convert_first_c convert_first]. eapply same_bind; [apply is_convertible_same; auto|]. intros c1 b HC1. cbn [fst snd].
    apply same_pure. intros _. now apply convert_to_same.
  - cbn [convert_first_c convert_first]. eapply same_bind; [apply is_convertible_same; auto|]. intros c1 b HC1. cbn [fst snd].
    destruct b; [now apply convert_to_same|]. now apply IH.
Qed.
End Proofs.

(** The value of a conversion, the counts recorded on the way left aside. *)
Definition value {C Y} (a : res (C * Y)) : res Y := do r <- a; Ok (snd r).

Lemma same_value {F D Y} (ar : arith F D) P m (a : res (counts * Y)) b :
  same ar P m (fun y => y) a b -> value a = b /\ forall c y, a = Ok (c, y) -> counts_true ar P m c.
Proof.
  intros H. unfold value. destruct a as [[c y]| | | |]; cbn in *; try (split; [congruence|discriminate]).
  destruct H as [-> HC]. split; [reflexivity|]. intros c0 y0 E. injection E as <- <-. exact HC.
Qed.

(** ** Numbers without NaN: any history of questions *)
(** Converting a matrix whose recorded counts are true (however they came about,
    and for whatever listed checkers) gives what a conversion counting afresh
    gives, and leaves true counts: also when it throws or fails. *)
Theorem C79_recorded_counts_are_harmless :
  forall (F D : Type) (ar : arith F D), linear ar -> forall exc dbg th (m : dense D) c,
    counts_true ar (fun k => ck_t k = TTdouble) m c ->
    value (convert_c ar exc dbg th m c) = convert ar exc dbg th m /\
    forall c' d, convert_c ar exc dbg th m c = Ok (c', d) -> counts_true ar (fun k => ck_t k = TTdouble) m c'.
Proof.
  intros F D ar L exc dbg th m c HC. apply same_value. apply convert_same; auto.
  intros k k' Hk Hk'. split; [exact Hk|]. destruct (C38_checker_order F D ar L) as [_ H]. now apply H.
Qed.
Print Assumptions C79_recorded_counts_are_harmless.

(** ** A fresh source, as every block of a cut matrix is *)
(** It suffices that the two significance thresholds, if neither is below the
    other, are exceeded by the same numbers. *)
Definition thresholds_comparable {F D} (ar : arith F D) (th : threshold D) : Prop :=
  ltD ar (sigD th) (sigF th) = false -> ltD ar (sigF th) (sigD th) = false ->
  forall x, ltD ar (sigD th) x = ltD ar (sigF th) x.

Definition th_keys {F D} (ar : arith F D) (th : threshold D) (k : checker D) : Prop :=
  k = mkChecker TTdouble ExclNo (sigD th) (d0 ar) \/ k = mkChecker TTdouble ExclNo (sigF th) (d0 ar) \/
  k = mkChecker TTdouble ExclIncl (sigD th) (sigF th).

Lemma th_keys_agree {F D} (ar : arith F D) th : thresholds_comparable ar th -> keys_agree ar (th_keys ar th).
Proof.
  intros H k k' [-> | [-> | ->]] [-> | [-> | ->]]; (split; [reflexivity|]); unfold ck_lt, ck_id, ck_ok; cbn; intros H1 H2 x; try reflexivity; try discriminate.
  - injection H1 as H1. injection H2 as H2. now apply H.
  - injection H1 as H1. injection H2 as H2. symmetry. now apply H.
Qed.

Theorem C79_fresh_source :
  forall (F D : Type) (ar : arith F D) exc dbg th (m : dense D), thresholds_comparable ar th ->
    value (convert_c ar exc dbg th m []) = convert ar exc dbg th m.
Proof.
  intros F D ar exc dbg th m H. apply (same_value ar (th_keys ar th) m).
  apply convert_same; try (unfold th_keys; now auto). { now apply th_keys_agree. } constructor.
Qed.
Print Assumptions C79_fresh_source.

Theorem C79_cut :
  forall (F D : Type) (ar : arith F D) exc dbg th (m : dense D) rl cl, thresholds_comparable ar th ->
    cut_c ar exc dbg th m rl cl = cut ar exc dbg th m rl cl.
Proof.
  intros F D ar exc dbg th m rl cl H. unfold cut_c, cut. cbv zeta. f_equal.
  apply foldM_ext. intros i [B ro] _. destruct (nth_error rl i) as [nr|]; [|reflexivity]. apply bind_ext. intros ads _.
  match goal with |- bind ?a _ = bind ?b _ => replace a with b; [reflexivity|] end.
  apply foldM_ext. intros [k pa] [B' co] _. destruct (nth_error cl k) as [nc|]; [|reflexivity].
  rewrite <- (C79_fresh_source F D ar exc dbg th _ H). unfold value. rewrite bind_bind. reflexivity.
Qed.
Print Assumptions C79_cut.

(** ** A stale count *)
(** A 2 x 2 matrix of zeros is asked for its occupation, filled, and converted: the
    type without storage is chosen and the contents are lost. *)
Definition stale_th : threshold Z := mkThreshold 1%Z 0%Z (fun t e => match t with TL TZ => 0 | _ => 1000 end)%Z.
Definition zeros22 : dense Z := mkDense (own_shape ColMajor 2 2) 4 (map Some [0; 0; 0; 0]%Z) true.
Definition filled22 : dense Z := mkDense (own_shape ColMajor 2 2) 4 (map Some [5; 6; 7; 8]%Z) true.

Theorem C79_stale_counts_refuted :
  exists c, asked_nb zar (mkChecker TTdouble ExclNo 0%Z 0%Z) zeros22 [] = Ok (c, 0) /\
  exists c2, asked_nb zar (mkChecker TTdouble ExclNo 1%Z 0%Z) zeros22 c = Ok (c2, 0) /\
    value (convert_c zar true true stale_th filled22 c2) = Ok (DL (LZ (z_new 2 2))) /\
    exists d, convert zar true true stale_th filled22 = Ok d /\ dyn_ty d <> TL TZ.
Proof.
  eexists. split; [vm_compute; reflexivity|]. eexists. split; [vm_compute; reflexivity|].
  split; [vm_compute; reflexivity|]. eexists. split; [vm_compute; reflexivity|]. discriminate.
Qed.

(** A sparse target takes its size from the stale count and is overrun. *)
Definition stale_th2 : threshold Z := mkThreshold 1%Z 0%Z (fun t e => match t with TL (TS ED) => 1000 | _ => -1 end)%Z.
Theorem C79_stale_counts_overrun_refuted :
  exists c, asked_nb zar (mkChecker TTdouble ExclNo 1%Z 0%Z) zeros22 [] = Ok (c, 0) /\
    convert_c zar true true stale_th2 filled22 c = UB OOBWrite /\
    exists d, convert zar true true stale_th2 filled22 = Ok d /\ dyn_ty d = TL (TS ED).
Proof.
  eexists. split; [vm_compute; reflexivity|]. split; [vm_compute; reflexivity|].
  eexists. split; [vm_compute; reflexivity|]. reflexivity.
Qed.

(** ** Example: four questions, two counts *)
Example C79_nonvacuous :
  thresholds_comparable zar stale_th /\
  exists d, convert_c zar true true stale_th filled22 []
    = Ok ([(mkChecker TTdouble ExclIncl 0%Z 1%Z, 0); (mkChecker TTdouble ExclNo 1%Z 0%Z, 4); (mkChecker TTdouble ExclNo 0%Z 0%Z, 4)], d) /\
    convert zar true true stale_th filled22 = Ok d /\ dyn_ty d = TL (TS EF).
Proof.
  split; [intros H; discriminate H|]. eexists. split; [vm_compute; reflexivity|]. split; vm_compute; reflexivity.
Qed.
