(** C76 for IEEE doubles: the comparisons with the cached norm and occupation,
    NaN and the two zeros included. *)
From Coq Require Import ZArith Reals Lra.
From Verif Require Import Base BaseLemmas Dyn_Model Check_Model Check_Spec Check_Props Norm_Model Query_Model Query_Spec Query_Props Fp_Ieee Exact27_Props.
From Flocq Require Import Core BinarySingleNaN.
#[local] Open Scope R_scope.

Lemma lt_iff (x y : f64) : Bltb x y = true <-> no_nan x /\ no_nan y /\ place x < place y.
Proof.
  unfold no_nan. destruct (is_nan x) eqn:Nx; [destruct (nan_lt_l x y Nx) as [-> _]; intuition discriminate|].
  destruct (is_nan y) eqn:Ny; [destruct (nan_lt_r x y Ny) as [-> _]; intuition discriminate|].
  rewrite lt_place by assumption. destruct (Rlt_bool_spec (place x) (place y)); intuition (try discriminate; lra).
Qed.

Section Q.
Context {C : Type} (norm_of : C -> f64) (count_of : (f64 -> bool) -> C -> nat) (size_of : C -> nat) (moved : C -> C).
Hypothesis count_ext : forall p q c, (forall x, p x = q x) -> count_of p c = count_of q c.
Lemma qrun_usable l : forall a e, disciplined asked_count a (List.map asks l) -> List.Forall usable_op (List.map asks l) ->
  uinv (N := f64) count_of a e ->
  exists e' o, qrun ieee norm_of count_of size_of moved e l = Ok (e', o) /\ List.Forall (occ_answer ieee count_of size_of) o.
Proof.
  induction l as [|x l IH]; intros a e Q Li I; cbn [qrun].
  - eexists _, _. split; [reflexivity|constructor].
  - cbn [List.map disciplined] in *. destruct Q as [Q1 Q2]. inversion Li as [|? ? L1 L2]; subst.
    destruct (ustep norm_of count_of moved count_ext a e (asks x) Q1 L1 I) as (e1 & o0 & E0 & I1 & O1).
    destruct (qstep_total ieee norm_of count_of size_of moved _ _ _ _ E0) as (o1 & E1).
    destruct (qstep_asks ieee norm_of count_of size_of moved _ _ _ _ E1) as (o0' & E0' & _ & HO). rewrite E0 in E0'. injection E0' as <-.
    destruct (IH _ e1 Q2 L2 I1) as (e2 & o2 & E2 & O2).
    rewrite E1. cbn [bind]. rewrite E2. cbn [bind]. eexists _, _. split; [reflexivity|]. apply List.Forall_app. auto.
Qed.
End Q.

(** [b] says that x is below y: NaN is below nothing, the two zeros are equal. *)
Definition says_below (b : bool) (x y : f64) : Prop := b = true <-> no_nan x /\ no_nan y /\ place x < place y.

Theorem C76_ieee_norm :
  forall (C : Type) (norm_of : C -> f64) count_of size_of moved (empty : C) (l : list (qop f64 C)) e o,
    disciplined asked_norm (fun _ => false) (List.map asks l) ->
    qrun ieee norm_of count_of size_of moved (start empty) l = Ok (e, o) ->
    forall a, List.In a o ->
      match a with
      | ANormLarger b x c => says_below b x (norm_of c)
      | ANormSmaller b x c => says_below b (norm_of c) x
      | ABase (ONorm n c) => n = norm_of c
      | _ => True
      end.
Proof.
  intros C norm_of count_of size_of moved empty l e o Q E a HI.
  pose proof (C76_norm_comparisons _ _ ieee C norm_of count_of size_of moved empty l e o Q E a HI) as H.
  destruct a as [[n c|n k c]|b x c|b x c|q k c|b x k c|b x k c]; cbn in *; auto; unfold says_below; rewrite <- lt_iff; exact H.
Qed.
Print Assumptions C76_ieee_norm.

(** With checkers that name no NaN every such program runs, and answers for the
    share the present contents have. *)
Theorem C76_ieee_occupation :
  forall (C : Type) (norm_of : C -> f64) count_of size_of moved (empty : C) (l : list (qop f64 C)),
    (forall p q c, (forall x, p x = q x) -> count_of p c = count_of q c) ->
    disciplined asked_count (fun _ => false) (List.map asks l) -> List.Forall usable_op (List.map asks l) ->
    let share k c := Bdiv mode_NE (nat64 (count_of (ck_ok ieee k) c)) (nat64 (size_of c)) in
    exists e o, qrun ieee norm_of count_of size_of moved (start empty) l = Ok (e, o) /\
      forall a, List.In a o ->
        match a with
        | AOcc q k c => q = share k c
        | AOccLarger b x k c => says_below b x (share k c)
        | AOccSmaller b x k c => says_below b (share k c) x
        | ABase (OCount n k c) => n = count_of (ck_ok ieee k) c
        | _ => True
        end.
Proof.
  intros C norm_of count_of size_of moved empty l Hext Q Li share.
  destruct (qrun_usable norm_of count_of size_of moved Hext l _ (start empty) Q Li) as (e & o & E & O).
  { intros v. split; [constructor|reflexivity]. }
  exists e, o. split; [exact E|]. intros a HI. rewrite List.Forall_forall in O. specialize (O _ HI).
  destruct a as [[n c|n k c]|b x c|b x c|q k c|b x k c|b x k c]; cbn in *; auto; unfold says_below; rewrite <- lt_iff; exact O.
Qed.
Print Assumptions C76_ieee_occupation.

(** Never both; neither exactly if the value is met or one of the two is NaN. *)
Theorem C76_ieee_exclusive :
  forall (C : Type) (norm_of : C -> f64) (o : obj f64 C f64) x,
    let '(o1, larger) := o_normLarger ieee norm_of o x in
    let '(o2, smaller) := o_normSmaller ieee norm_of o1 x in
    let '(o3, n) := o_getNorm norm_of o2 in
    larger && smaller = false /\
    (larger = false /\ smaller = false <-> is_nan n = true \/ is_nan x = true \/ place n = place x).
Proof.
  intros C norm_of o x. unfold o_normLarger, o_normSmaller. cbn [ieee ltD].
  assert (G : forall n, (Bltb x n && Bltb n x = false) /\
    (Bltb x n = false /\ Bltb n x = false <-> is_nan n = true \/ is_nan x = true \/ place n = place x)).
  { intros n. destruct (is_nan n) eqn:Nn.
    { destruct (nan_lt_l n x Nn) as [-> _]. destruct (nan_lt_r x n Nn) as [-> _]. intuition. }
    destruct (is_nan x) eqn:Nx.
    { destruct (nan_lt_l x n Nx) as [-> _]. destruct (nan_lt_r n x Nx) as [-> _]. intuition. }
    rewrite !lt_place by assumption.
    destruct (Rlt_bool_spec (place x) (place n)), (Rlt_bool_spec (place n) (place x)); cbn [andb]; try lra;
      (split; [reflexivity|]); split; try (intros [? ?]; discriminate); try (intros [?|[?|?]]; try discriminate; lra);
      first [intros _; right; right; lra|auto]. }
  unfold o_getNorm. destruct (o_norm o) as [n|] eqn:EN; cbn [o_norm o_c].
  - rewrite EN. cbn. rewrite EN. apply G.
  - apply G.
Qed.
Print Assumptions C76_ieee_exclusive.
Example C76_ieee_nonvacuous :
  let norm (c : list f64) := match c with nil => B754_zero true | x :: _ => x end in
  let cnt (p : f64 -> bool) (c : list f64) := length (List.filter p c) in
  let k := mkChecker TTdouble ExclNo (B754_zero true) c1 in
  let p := [QBase (New 0 [c1; B754_nan]); QNormLarger 0 (B754_zero false); QOccLarger 0 (B754_zero false) k; QNormSmaller 0 B754_nan;
            QBase (New 1 nil); QNormLarger 1 (B754_zero false)] in
  disciplined asked_norm (fun _ => false) (List.map asks p) /\ disciplined asked_count (fun _ => false) (List.map asks p) /\
  List.Forall usable_op (List.map asks p) /\
  exists e, qrun ieee norm cnt (@length f64) (fun _ => nil) (start nil) p =
    Ok (e, [ANormLarger true (B754_zero false) [c1; B754_nan]; AOccLarger true (B754_zero false) k [c1; B754_nan];
            ANormSmaller false B754_nan [c1; B754_nan]; ANormLarger false (B754_zero false) nil]).
Proof.
  cbv zeta. split; [cbn; auto 10|]. split; [cbn; auto 10|]. split.
  - repeat constructor; intros; try reflexivity.
  - eexists. reflexivity.
Qed.
