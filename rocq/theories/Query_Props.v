(** C76: comparisons with the norm and the occupation.  Vocabulary:
    Query_Spec.v, Check_Spec.v. *)
From Verif Require Import Base BaseLemmas Dense_Model Dense_Spec Dense_Proofs Sparse_Model Sparse2_Proofs Sparse_Spec
  Dyn_Model Dyn_Spec Dyn_Proofs Dyn2_Proofs Check_Model Check_Spec Check_Props Norm_Model Norm_Spec Norm_Proofs Dyn_Props Norm_Props Query_Model Query_Spec.

Section Q.
Context {F D : Type} (ar : arith F D) {C : Type}.
Context (norm_of : C -> D) (count_of : (D -> bool) -> C -> nat) (size_of : C -> nat) (moved : C -> C).
Notation qstep := (qstep ar norm_of count_of size_of moved).
Notation qrun := (qrun ar norm_of count_of size_of moved).

Definition na : qout D C -> Prop := norm_answer ar norm_of.
Definition oa : qout D C -> Prop := occ_answer ar count_of size_of.

(** Every operation leaves the state its question leaves, and answers from the
    value the question gets. *)
Lemma qstep_asks e x e' o : qstep e x = Ok (e', o) ->
  exists o0, step ar norm_of count_of moved e (asks x) = Ok (e', o0) /\
    (Forall (norm_out norm_of) o0 -> Forall na o) /\ (Forall (occ_out ar count_of) o0 -> Forall oa o).
Proof.
  unfold na, oa.
  destruct x as [x|v x|v x|v k|v x k|v x k]; cbn [Query_Model.qstep asks]; intros E.
  - apply bind_ok in E as ([e1 o1] & E1 & E). injection E as <- <-. exists o1. split; [exact E1|].
    split; intros H; apply Forall_map; (eapply Forall_impl; [|exact H]); intros [n c|n k c]; cbn; auto.
  - unfold o_normLarger in E. cbn [step]. destruct (o_getNorm norm_of (e v)) as [o1 n] eqn:EN. injection E as <- <-.
    exists [ONorm n (o_c (e v))]. split; [reflexivity|].
    split; intros H; inversion H as [|? ? H1 _]; subst; (constructor; [|constructor]); cbn in *; [|exact I]. rewrite H1. reflexivity.
  - unfold o_normSmaller in E. cbn [step]. destruct (o_getNorm norm_of (e v)) as [o1 n] eqn:EN. injection E as <- <-.
    exists [ONorm n (o_c (e v))]. split; [reflexivity|].
    split; intros H; inversion H as [|? ? H1 _]; subst; (constructor; [|constructor]); cbn in *; [|exact I]. rewrite H1. reflexivity.
  - unfold o_getOcc in E. cbn [step]. apply bind_ok in E as ([o1 q] & E1 & E). injection E as <- <-.
    apply bind_ok in E1 as ([o2 n] & E2 & E1). injection E1 as <- <-. rewrite E2. cbn [bind].
    exists [OCount n k (o_c (e v))]. split; [reflexivity|].
    assert (HC : o_c o2 = o_c (e v)).
    { unfold o_getCount in E2. apply bind_ok in E2 as ([m|] & _ & E2); injection E2 as <- <-; reflexivity. }
    split; intros H; inversion H as [|? ? H1 _]; subst; (constructor; [|constructor]); cbn in *; [exact I|].
    unfold share. now rewrite H1, HC.
  - unfold o_occLarger, o_getOcc in E. cbn [step]. apply bind_ok in E as ([o1 b] & E1 & E). injection E as <- <-.
    apply bind_ok in E1 as ([o2 q] & E1 & E2). injection E2 as <- <-. apply bind_ok in E1 as ([o3 n] & E2 & E1). injection E1 as <- <-.
    rewrite E2. cbn [bind]. exists [OCount n k (o_c (e v))]. split; [reflexivity|].
    assert (HC : o_c o3 = o_c (e v)).
    { unfold o_getCount in E2. apply bind_ok in E2 as ([m|] & _ & E2); injection E2 as <- <-; reflexivity. }
    split; intros H; inversion H as [|? ? H1 _]; subst; (constructor; [|constructor]); cbn in *; [exact I|].
    unfold share. rewrite H1, HC. reflexivity.
  - unfold o_occSmaller, o_getOcc in E. cbn [step]. apply bind_ok in E as ([o1 b] & E1 & E). injection E as <- <-.
    apply bind_ok in E1 as ([o2 q] & E1 & E2). injection E2 as <- <-. apply bind_ok in E1 as ([o3 n] & E2 & E1). injection E1 as <- <-.
    rewrite E2. cbn [bind]. exists [OCount n k (o_c (e v))]. split; [reflexivity|].
    assert (HC : o_c o3 = o_c (e v)).
    { unfold o_getCount in E2. apply bind_ok in E2 as ([m|] & _ & E2); injection E2 as <- <-; reflexivity. }
    split; intros H; inversion H as [|? ? H1 _]; subst; (constructor; [|constructor]); cbn in *; [exact I|].
    unfold share. rewrite H1, HC. reflexivity.
Qed.

Lemma qrun_norm l : forall a e e' o, disciplined asked_norm a (map asks l) -> norm_inv norm_of a e ->
  qrun e l = Ok (e', o) -> Forall na o.
Proof.
  induction l as [|x l IH]; intros a e e' o Q I E; cbn [Query_Model.qrun] in E.
  - injection E as <- <-. constructor.
  - apply bind_ok in E as ([e1 o1] & E1 & E). apply bind_ok in E as ([e2 o2] & E2 & E). injection E as <- <-.
    destruct (qstep_asks _ _ _ _ E1) as (o0 & E0 & HN & _). cbn [map disciplined] in Q. destruct Q as [Q1 Q2].
    destruct (norm_step ar norm_of count_of moved a e (asks x) e1 o0 Q1 I E0) as [I1 O1].
    apply Forall_app. split; [auto|]. eapply IH; eauto.
Qed.

Context (L : linear ar).
Hypothesis count_ext : forall p q c, (forall x, p x = q x) -> count_of p c = count_of q c.
(** A question that can be answered: so can the comparison. *)
Lemma qstep_total e x e1 o0 : step ar norm_of count_of moved e (asks x) = Ok (e1, o0) -> exists o, qstep e x = Ok (e1, o).
Proof.
  destruct x as [x|v x|v x|v k|v x k|v x k]; cbn [asks]; intros E.
  - cbn [Query_Model.qstep]. rewrite E. cbn [bind]. eauto.
  - cbn [step] in E. cbn [Query_Model.qstep]. unfold o_normLarger. destruct (o_getNorm norm_of (e v)). injection E as <- _. eauto.
  - cbn [step] in E. cbn [Query_Model.qstep]. unfold o_normSmaller. destruct (o_getNorm norm_of (e v)). injection E as <- _. eauto.
  - cbn [step] in E. apply bind_ok in E as ([o2 n] & E2 & E). injection E as <- _.
    cbn [Query_Model.qstep]. unfold o_getOcc. rewrite E2. cbn [bind]. eauto.
  - cbn [step] in E. apply bind_ok in E as ([o2 n] & E2 & E). injection E as <- _.
    cbn [Query_Model.qstep]. unfold o_occLarger, o_getOcc. rewrite E2. cbn [bind]. eauto.
  - cbn [step] in E. apply bind_ok in E as ([o2 n] & E2 & E). injection E as <- _.
    cbn [Query_Model.qstep]. unfold o_occSmaller, o_getOcc. rewrite E2. cbn [bind]. eauto.
Qed.
Lemma qrun_occ l : forall a e, disciplined asked_count a (map asks l) -> Forall listed_op (map asks l) -> occ_inv ar count_of a e ->
  exists e' o, qrun e l = Ok (e', o) /\ Forall oa o.
Proof.
  induction l as [|x l IH]; intros a e Q Li I; cbn [Query_Model.qrun].
  - eexists _, _. split; [reflexivity|constructor].
  - cbn [map disciplined] in *. destruct Q as [Q1 Q2]. inversion Li as [|? ? L1 L2]; subst.
    destruct (occ_step ar L norm_of count_of moved count_ext a e (asks x) Q1 L1 I) as (e1 & o0 & E0 & I1 & O1).
    destruct (qstep_total _ _ _ _ E0) as (o1 & E1).
    destruct (qstep_asks _ _ _ _ E1) as (o0' & E0' & _ & HO). rewrite E0 in E0'. injection E0' as <-.
    destruct (IH _ e1 Q2 L2 I1) as (e2 & o2 & E2 & O2).
    rewrite E1. cbn [bind]. rewrite E2. cbn [bind]. eexists _, _. split; [reflexivity|]. apply Forall_app. auto.
Qed.
End Q.

(** ** C76 *)
(** Every comparison with the norm, in any program that changes no object whose
    norm was asked for or compared, is answered for the present contents. *)
Theorem C76_norm_comparisons :
  forall (F D : Type) (ar : arith F D) (C : Type) (norm_of : C -> D) count_of size_of moved (empty : C) (l : list (qop D C)) e o,
    disciplined asked_norm (fun _ => false) (map asks l) ->
    qrun ar norm_of count_of size_of moved (start empty) l = Ok (e, o) ->
    forall a, In a o -> norm_answer ar norm_of a.
Proof.
  intros F D ar C norm_of count_of size_of moved empty l e o Q E a HI.
  pose proof (qrun_norm ar norm_of count_of size_of moved l _ (start empty) e o Q) as H.
  specialize (H ltac:(intros v; exact Logic.I) E). rewrite Forall_forall in H. exact (H _ HI).
Qed.
Print Assumptions C76_norm_comparisons.

(** The same for the occupation; with double checkers no such program has
    undefined behaviour. *)
Theorem C76_occupation_comparisons :
  forall (F D : Type) (ar : arith F D), linear ar ->
  forall (C : Type) (norm_of : C -> D) count_of size_of moved (empty : C) (l : list (qop D C)),
    (forall p q c, (forall x, p x = q x) -> count_of p c = count_of q c) ->
    disciplined asked_count (fun _ => false) (map asks l) -> Forall listed_op (map asks l) ->
    exists e o, qrun ar norm_of count_of size_of moved (start empty) l = Ok (e, o) /\
      forall a, In a o -> occ_answer ar count_of size_of a.
Proof.
  intros F D ar L C norm_of count_of size_of moved empty l Hext Q Li.
  destruct (qrun_occ ar norm_of count_of size_of moved L Hext l _ (start empty) Q Li) as (e & o & E & O).
  { intros v. split; [constructor|reflexivity]. }
  exists e, o. split; [exact E|]. intros a HI. rewrite Forall_forall in O. exact (O _ HI).
Qed.
Print Assumptions C76_occupation_comparisons.

(** Two comparisons of the same unchanged object with the same value are never
    both true; both are false exactly if the value is met. *)
Theorem C76_comparisons_are_exclusive :
  forall (F D : Type) (ar : arith F D), linear ar -> forall (C : Type) (norm_of : C -> D) (o : obj D C D) x,
    let '(o1, larger) := o_normLarger ar norm_of o x in
    let '(o2, smaller) := o_normSmaller ar norm_of o1 x in
    let '(o3, n) := o_getNorm norm_of o2 in
    (larger && smaller = false) /\ (larger = false /\ smaller = false <-> n = x).
Proof.
  intros F D ar L C norm_of o x. unfold o_normLarger, o_normSmaller.
  assert (G : forall n, (ltD ar x n && ltD ar n x = false) /\ (ltD ar x n = false /\ ltD ar n x = false <-> n = x)).
  { intros n. destruct (ltD ar x n) eqn:E1.
    - rewrite (lt_asym ar L _ _ E1). split; [reflexivity|]. split; [intros [H _]; discriminate|].
      intros ->. rewrite (ln_irrefl ar L) in E1. discriminate.
    - split; [reflexivity|]. split.
      + intros [_ H]. destruct (ln_total ar L n x) as [T|[T|T]]; congruence.
      + intros ->. rewrite (ln_irrefl ar L). auto. }
  unfold o_getNorm. destruct (o_norm o) as [n|] eqn:EN; cbn [o_norm o_c].
  - rewrite EN. cbn. rewrite EN. apply G.
  - apply G.
Qed.
Print Assumptions C76_comparisons_are_exclusive.

(** Contents: a list of numbers. *)
Notation zq := (qrun zchk l1 lcount (@length Z) (fun _ => []) (start [])).
Example C76_nonvacuous :
  let p := [QBase (New 0 [1; -2]%Z); QNormLarger 0 2%Z; QNormSmaller 0 3%Z; QBase (Copy 1 0); QNormLarger 1 3%Z;
            QOccLarger 0 0%Z (zgt 0); QOcc 0 (zgt 5); QBase (Reset 0)] : list (qop Z (list Z)) in
  disciplined asked_norm (fun _ => false) (map asks p) /\ disciplined asked_count (fun _ => false) (map asks p) /\
  Forall listed_op (map asks p) /\
  exists e, zq p = Ok (e, [ANormLarger true 2 [1; -2]; ANormSmaller false 3 [1; -2]; ANormLarger false 3 [1; -2];
                           AOccLarger true 0 (zgt 0) [1; -2]; AOcc 0 (zgt 5) [1; -2]]%Z).
Proof. cbn zeta. split; [cbn; auto 10|]. split; [cbn; auto 10|]. split; [repeat constructor|]. eexists. reflexivity. Qed.

(** A comparison made before a change decides the later ones. *)
Theorem C76_stale_comparison_refuted :
  exists e, zq [QBase (New 0 [1]%Z); QNormLarger 0 100%Z; QBase (Modify 0 (fun _ => [1000]%Z)); QNormLarger 0 100%Z;
                QBase (New 1 []); QOcc 1 (zgt 0); QBase (Modify 1 (fun _ => [7; 7]%Z)); QOccLarger 1 0%Z (zgt 0)] =
     Ok (e, [ANormLarger false 100 [1]; ANormLarger false 100 [1000];
             AOcc 0 (zgt 0) []; AOccLarger false 0 (zgt 0) [7; 7]]%Z).
Proof. eexists. reflexivity. Qed.

(** A Zero matrix answers like any dense matrix of zeros of one element or more,
    for every range that does not contain 0: [fresh] is the object just built. *)
Section Zero.
Context {F D : Type} (ar : arith F D) (nx : nops F D) {SD : Scalar D}.
Definition norm2_of (bad : D) (d : dense D) : D := match norm_leaf ar nx NTwo (LDd d) with Ok n => n | _ => bad end.
Definition count_in (p : D -> bool) (d : dense D) : nat := match d_count p d with Ok n => n | _ => d_getSize d end.
End Zero.
Theorem C76_zero_matrix_agrees :
  forall (F D : Type) (ar : arith F D) (nx : nops F D) (SD : Scalar D), nexact ar nx -> linear ar -> sqrtD nx s0 = s0 ->
    (forall m, 1 <= m -> quotD ar 0 m = s0) ->
  forall (d : dense D) r c x bad chk lo,
    is_mat d r c (fun _ _ => s0) -> full_ok d -> 1 <= r * c -> ~ in_range ar chk s0 ->
    let fresh := o_new d in
    let norm_of := norm2_of ar nx bad in
    snd (o_normLarger ar norm_of fresh x) = z_normLarger ar x /\
    snd (o_normSmaller ar norm_of fresh x) = z_normSmaller ar x /\
    rmap snd (o_getOcc ar count_in d_getSize chk fresh) = Ok (z_occ ar lo) /\
    rmap snd (o_occLarger ar count_in d_getSize x chk fresh) = Ok (z_occLarger ar x lo) /\
    rmap snd (o_occSmaller ar count_in d_getSize x chk fresh) = Ok (z_occSmaller ar x lo).
Proof.
  intros F D ar nx SD X L S0 Q0 d r c x bad chk lo [W V] HF Hrc HR. cbv zeta.
  assert (EN : norm2_of ar nx bad d = s0).
  { unfold norm2_of. cbn [norm_leaf]. rewrite (norm_dense_val ar nx _ NTwo d r c _ V (or_introl W)).
    pose proof (dense_elems ar nx X NTwo (fun _ _ => s0) (d_orient d) r c S0) as H. cbn [is_norm] in H.
    etransitivity; [exact H|].
    assert (Z : is_norm ar nx NTwo r c (fun _ _ => s0) s0) by (apply (norm_zero ar nx X NTwo r c); exact S0).
    symmetry. exact Z. }
  assert (EC : count_in (ck_ok ar chk) d = 0).
  { unfold count_in. rewrite (d_count_spec _ d r c _ V (or_introl W)). unfold count2.
    assert (E : ck_ok ar chk s0 = false) by (destruct (ck_ok ar chk s0) eqn:E; [apply (ck_ok_iff ar L) in E; contradiction|reflexivity]).
    rewrite (proj2 (length_zero_iff_nil _)); [reflexivity|].
    generalize (flat_map (fun i => map (fun j => (i, j)) (seq 0 c)) (seq 0 r)) as l.
    induction l as [|[i j] l IH]; [reflexivity|]. cbn [filter]. rewrite IH, E. reflexivity. }
  assert (ES : d_getSize d = r * c) by (unfold full_ok in HF; destruct V as (Er & Ec & _); now rewrite HF, Er, Ec).
  unfold o_normLarger, o_normSmaller, o_occLarger, o_occSmaller, o_getOcc, o_getCount, o_getNorm, o_new,
    z_normLarger, z_normSmaller, z_occ, z_occLarger, z_occSmaller.
  cbn [o_norm o_occ o_c map_find bind rmap snd]. rewrite EN, EC, ES, (Q0 _ Hrc), (ex_d0 ar (nx_exact ar nx X)). auto.
Qed.
Print Assumptions C76_zero_matrix_agrees.

Lemma zq0 m : 1 <= m -> quotD zar 0 m = 0%Z.
Proof. intros H. cbn. apply Z.div_small. lia. Qed.
Example C76_zero_matrix_nonvacuous :
  nexact zar znx /\ linear zar /\ sqrtD znx 0%Z = 0%Z /\ (forall m, 1 <= m -> quotD zar 0 m = 0%Z) /\
  let d := d_of_zero 0%Z ColMajor 2 3 in
  is_mat d 2 3 (fun _ _ => 0%Z) /\ full_ok d /\ ~ in_range zar (zgt 0) 0%Z.
Proof.
  split; [exact znx_exact|]. split; [exact zar_linear|]. split; [reflexivity|]. split; [exact zq0|]. cbn zeta.
  split; [|split; [reflexivity|intros H; discriminate H]].
  split; [split; [reflexivity|split; reflexivity]|]. split; [reflexivity|]. split; [reflexivity|]. intros i j Hi Hj.
  destruct i as [|[|i]]; [| |lia]; (destruct j as [|[|[|j]]]; [reflexivity..|lia]).
Qed.

(** A closed range starting at 0 counts zeros in a dense matrix, never in a Zero
    matrix. *)
Theorem C76_zero_matrix_closed_range_refuted :
  let d := d_of_zero 0%Z ColMajor 1 2 in
  rmap snd (o_getOcc zar count_in d_getSize (mkChecker TTdouble InclIncl 0%Z 5%Z) (o_new d)) = Ok 1000%Z /\
  z_occ zar 0%Z = 0%Z.
Proof. cbn zeta. split; reflexivity. Qed.

(** ** Through the run-time type *)
(** One-part matrices: the comparison with the norm C42 describes. *)
Theorem C76_runtime_typed :
  forall (F D : Type) (ar : arith F D) (nx : nops F D) exc dbg (l : leaf F D) n x,
    In (TL (leaf_ty l)) type_list -> norm_leaf ar nx NTwo l = Ok n ->
    exists b, normLarger_ptr ar nx exc dbg (Some (DL l)) x = Ok b /\ (b = true <-> lt ar x n).
Proof.
  intros F D ar nx exc dbg l n x HI EN. unfold normLarger_ptr.
  rewrite (exec_member_ok exc dbg _ (DL l) HI). rewrite EN. cbn [bind]. eexists. split; [reflexivity|]. reflexivity.
Qed.
Print Assumptions C76_runtime_typed.
(** Two-part matrices: an exception, a failed assertion, or, in a release build
    without exceptions, "not larger" whatever the contents. *)
Theorem C76_two_part_refuted :
  forall (F D : Type) (ar : arith F D) (nx : nops F D) exc dbg t1 t2 m1 m2 x,
    In (TM t1 t2) type_list ->
    normLarger_ptr ar nx exc dbg (Some (DM t1 t2 m1 m2)) x =
      if exc : bool then Throw else if dbg : bool then AssertFail else Ok false.
Proof.
  intros F D ar nx exc dbg t1 t2 m1 m2 x HI. unfold normLarger_ptr.
  rewrite (exec_member_ok exc dbg _ (DM t1 t2 m1 m2) HI). destruct exc, dbg; reflexivity.
Qed.
Print Assumptions C76_two_part_refuted.
