(** IEEE versions of C36, C37 and C38: real doubles do not form the linear order
    [linear] asks for (0 and -0 are different but neither is smaller, NaN
    compares with nothing), so here the checkers are taken over the doubles
    themselves.  And what becomes of NaN elements in a conversion (C34). *)
From Coq Require Import ZArith Reals Lra.
From Verif Require Import Base BaseLemmas Dense_Model Dense_Spec Dense_Proofs Dense2_Proofs Sparse_Model Sparse_Spec
  Sparse_Proofs Sparse2_Proofs Sparse3_Proofs Sparse4_Proofs SparseT_Proofs SparseP_Proofs
  Mult_Model Mult_Spec Mult_Proofs Mult2_Proofs Mult3_Proofs Dyn_Model Dyn_Spec Dyn_Proofs Dyn2_Proofs Block_Proofs
  Conv_Spec Conv_Proofs Check_Model Check_Spec Check_Props Dense_Props Sparse_Props Mult_Props Dyn_Props Fp_Ieee.
From Flocq Require Import Core BinarySingleNaN.

#[local] Open Scope R_scope.
Definition no_nan (x : f64) : Prop := is_nan x = false.
(** Where a double that is not NaN lies on the real line; the infinities lie
    beyond all finite doubles. *)
Definition place (x : f64) : R :=
  match x with
  | B754_infinity s => if s then - bpow radix2 1024 else bpow radix2 1024
  | _ => B2R x
  end.

Lemma place_in (x : f64) : is_finite x = true -> - bpow radix2 1024 < place x < bpow radix2 1024.
Proof.
  intros H. assert (E : place x = B2R x) by (destruct x; try discriminate; reflexivity). rewrite E.
  apply Rabs_lt_inv. apply abs_B2R_lt_emax.
Qed.
Lemma place_fin (x : f64) : is_finite x = true -> place x = B2R x.
Proof. destruct x; try discriminate; reflexivity. Qed.

Lemma cmp_place (x y : f64) : no_nan x -> no_nan y -> Bcompare x y = Some (Rcompare (place x) (place y)).
Proof.
  intros Nx Ny. destruct (is_finite x) eqn:Fx; destruct (is_finite y) eqn:Fy.
  - rewrite !place_fin by assumption. now apply Bcompare_correct.
  - pose proof (place_in x Fx) as [H1 H2].
    destruct y as [|[]| |]; try discriminate; cbn [place].
    + rewrite Rcompare_Gt by lra. destruct x; try discriminate; reflexivity.
    + rewrite Rcompare_Lt by lra. destruct x; try discriminate; reflexivity.
  - pose proof (place_in y Fy) as [H1 H2].
    destruct x as [|[]| |]; try discriminate; cbn [place].
    + rewrite Rcompare_Lt by lra. destruct y; try discriminate; reflexivity.
    + rewrite Rcompare_Gt by lra. destruct y; try discriminate; reflexivity.
  - pose proof (bpow_gt_0 radix2 1024) as P.
    destruct x as [|[]| |]; try discriminate; destruct y as [|[]| |]; try discriminate; cbn [place];
      [rewrite Rcompare_Eq by lra|rewrite Rcompare_Lt by lra|rewrite Rcompare_Gt by lra|rewrite Rcompare_Eq by lra]; reflexivity.
Qed.
Lemma lt_place (x y : f64) : no_nan x -> no_nan y -> Bltb x y = Rlt_bool (place x) (place y).
Proof.
  intros Nx Ny. pose proof (cmp_place x y Nx Ny) as C. unfold Bltb, SpecFloat.SFltb. unfold Bcompare in C. rewrite C.
  destruct (Rcompare_spec (place x) (place y)) as [L|L|L];
    [rewrite Rlt_bool_true by lra|rewrite Rlt_bool_false by lra|rewrite Rlt_bool_false by lra]; reflexivity.
Qed.
Lemma le_place (x y : f64) : no_nan x -> no_nan y -> Bleb x y = Rle_bool (place x) (place y).
Proof.
  intros Nx Ny. pose proof (cmp_place x y Nx Ny) as C. unfold Bleb, SpecFloat.SFleb. unfold Bcompare in C. rewrite C.
  destruct (Rcompare_spec (place x) (place y)) as [L|L|L];
    [rewrite Rle_bool_true by lra|rewrite Rle_bool_true by lra|rewrite Rle_bool_false by lra]; reflexivity.
Qed.
Lemma nan_lt_l (x y : f64) : is_nan x = true -> Bltb x y = false /\ Bleb x y = false.
Proof. destruct x; try discriminate. split; reflexivity. Qed.
Lemma nan_lt_r (x y : f64) : is_nan y = true -> Bltb x y = false /\ Bleb x y = false.
Proof. destruct y; try discriminate. destruct x as [|[]| |[] ]; split; reflexivity. Qed.
Lemma abs_place (x : f64) : place (Babs x) = Rabs (place x).
Proof.
  destruct x as [s|s| |s m e B].
  - cbn. now rewrite Rabs_R0.
  - pose proof (bpow_gt_0 radix2 1024) as P. destruct s; cbn [Babs place]; [rewrite Rabs_Ropp|]; rewrite Rabs_pos_eq; lra.
  - cbn. now rewrite Rabs_R0.
  - change (B2R (Babs (B754_finite s m e B)) = Rabs (B2R (B754_finite s m e B))). apply B2R_Babs.
Qed.
Lemma abs_nan (x : f64) : is_nan (Babs x) = is_nan x.
Proof. now destruct x. Qed.

(** The comparisons of the real numbers. *)
Definition rar : arith R R := {|
  f0 := 0; d0 := 0; fnz := fun _ => true; dnz := fun _ => true; toD := fun x => x; toF := fun x => x;
  addF := Rplus; subF := Rminus; oppF := Ropp; addD := Rplus; subD := Rminus; oppD := Ropp;
  fmaF := fun c x y => c + x * y; fmaD := fun c x y => c + x * y; dotF := fun _ => 0; dotD := fun _ => 0;
  absD := Rabs; ltD := Rlt_bool; leD := Rle_bool; quotD := fun n m => INR n / INR m |}.
Lemma rar_linear : linear rar.
Proof.
  split; cbn.
  - intros x. apply Rlt_bool_false. lra.
  - intros x y z. intros H1 H2. destruct (Rlt_bool_spec x y); [|discriminate]. destruct (Rlt_bool_spec y z); [|discriminate]. apply Rlt_bool_true. lra.
  - intros x y. destruct (Rtotal_order x y) as [H|[H|H]]; [left; now apply Rlt_bool_true|tauto|right; right; now apply Rlt_bool_true].
  - intros x y. symmetry. apply negb_Rle_bool.
Qed.

(** The same checker over the reals. *)
Definition at_place (c : checker f64) : checker R := mkChecker (ck_t c) (ck_k c) (place (ck_lo c)) (place (ck_hi c)).
(** No bound that counts is NaN. *)
Definition bounds_ok (k : ckind) (lo hi : f64) : Prop := no_nan lo /\ (k <> ExclNo -> no_nan hi).

Lemma ck_lt_place a b : bounds_ok (ck_k a) (ck_lo a) (ck_hi a) -> bounds_ok (ck_k b) (ck_lo b) (ck_hi b) ->
  ck_lt ieee a b = ck_lt rar (at_place a) (at_place b).
Proof.
  destruct a as [t k lo hi], b as [t' k' lo' hi']. intros [La Ha] [Lb Hb]. cbn [ck_k ck_lo ck_hi] in *.
  unfold ck_lt, ck_id, at_place; cbn [ck_t ck_k ck_lo ck_hi].
  destruct (_ <? _)%nat; [reflexivity|]. destruct (_ <? _)%nat; [reflexivity|].
  destruct (negb _) eqn:E; [reflexivity|]. unfold lex2. cbn [ieee rar ltD].
  rewrite !(lt_place lo lo'), !(lt_place lo' lo) by assumption.
  destruct k; [reflexivity|..]; destruct k'; cbn in E; rewrite ?andb_false_r in E; try discriminate;
    rewrite (lt_place hi hi') by (apply Ha || apply Hb; discriminate); reflexivity.
Qed.
Lemma ck_ok_place c x : bounds_ok (ck_k c) (ck_lo c) (ck_hi c) ->
  ck_ok ieee c x = negb (is_nan x) && ck_ok rar (at_place c) (place x).
Proof.
  destruct c as [t k lo hi]. intros [L H]. cbn [ck_k ck_lo ck_hi] in *. unfold ck_ok, at_place; cbn [ck_k ck_lo ck_hi ieee rar ltD leD absD].
  destruct (is_nan x) eqn:N; cbn [negb andb].
  - assert (NA : is_nan (Babs x) = true) by (now rewrite abs_nan).
    destruct (nan_lt_r lo _ NA) as [-> ->]. destruct k; reflexivity.
  - assert (NA : no_nan (Babs x)) by (unfold no_nan; now rewrite abs_nan).
    rewrite <- abs_place. rewrite (lt_place lo (Babs x)), (le_place lo (Babs x)) by assumption.
    destruct k; [reflexivity|..]; rewrite ?(lt_place (Babs x) hi), ?(le_place (Babs x) hi) by (assumption || (apply H; discriminate)); reflexivity.
Qed.

(** C37 for doubles: which ranges are accepted, and which elements. *)
Theorem C37_ieee :
  forall t k lo hi,
    let c := mkChecker t k lo hi in
    (bounds_ok k lo hi ->
       let good := 0 <= place lo /\
         match k with ExclNo => True | InclIncl => place lo <= place hi | _ => place lo < place hi end in
       (good -> ck_new ieee t k lo hi = Ok c) /\ (~ good -> ck_new ieee t k lo hi = Throw)) /\
    forall x, ck_ok ieee c x = true <->
      no_nan x /\ bounds_ok k lo hi /\
      match k with
      | ExclNo => place lo < Rabs (place x)
      | ExclIncl => place lo < Rabs (place x) <= place hi
      | InclIncl => place lo <= Rabs (place x) <= place hi
      | ExclExcl => place lo < Rabs (place x) < place hi
      end.
Proof.
  intros t k lo hi c. split.
  - intros [L H] good. subst good c.
    assert (E : ck_new ieee t k lo hi = match ck_new rar t k (place lo) (place hi) with Ok _ => Ok (mkChecker t k lo hi) | _ => Throw end).
    { assert (Z : no_nan (d0 ieee)) by reflexivity. assert (P0 : place (d0 ieee) = 0) by reflexivity.
      unfold ck_new. cbn [ieee rar ltD leD]. rewrite (lt_place lo _ L Z), P0. change (d0 rar) with 0.
      destruct k; [destruct (Rlt_bool _ _); reflexivity|..];
        (assert (Hh : no_nan hi) by (apply H; discriminate)); rewrite (lt_place hi _ Hh Z), P0;
        rewrite ?(le_place hi lo Hh L), ?(lt_place hi lo Hh L);
        repeat (match goal with |- context [if ?b then _ else _] => destruct b end); reflexivity. }
    rewrite E. unfold ck_new. cbn [rar ltD leD d0].
    destruct (Rlt_bool_spec (place lo) 0); [destruct k; (split; [intros; lra|reflexivity])|].
    destruct k; [split; [reflexivity|intros HN; exfalso; tauto]|..];
      destruct (Rlt_bool_spec (place hi) 0); try (split; [intros; lra|reflexivity]).
    + destruct (Rle_bool_spec (place hi) (place lo)); split; intros; try reflexivity; lra.
    + destruct (Rlt_bool_spec (place hi) (place lo)); split; intros; try reflexivity; lra.
    + destruct (Rle_bool_spec (place hi) (place lo)); split; intros; try reflexivity; lra.
  - intros x. subst c.
    assert (R : bounds_ok k lo hi \/ ~ bounds_ok k lo hi /\ ck_ok ieee (mkChecker t k lo hi) x = false).
    { unfold bounds_ok, no_nan, ck_ok; cbn [ck_k ck_lo ck_hi ieee ltD leD absD].
      destruct (is_nan lo) eqn:NL.
      - right. split; [intros [? _]; discriminate|]. destruct (nan_lt_l lo (Babs x) NL) as [-> ->]. destruct k; reflexivity.
      - destruct (is_nan hi) eqn:NH; [|left; auto].
        destruct k; [left; split; [reflexivity|intros E; now contradict E]|..];
          (right; split; [intros [_ E]; specialize (E ltac:(discriminate)); discriminate|]);
          destruct (nan_lt_r (Babs x) hi NH) as [E1 E2]; rewrite ?E1, ?E2; now rewrite andb_false_r. }
    destruct R as [R|[R E]]; [|rewrite E; split; [discriminate|tauto]].
    rewrite ck_ok_place by exact R. unfold no_nan. unfold ck_ok, at_place; cbn [ck_k ck_lo ck_hi rar ltD leD absD].
    destruct (is_nan x); cbn [negb andb]; [split; [discriminate|intros [E _]; discriminate]|].
    destruct k; rewrite ?andb_true_iff;
      repeat match goal with
      | |- context [Rlt_bool ?a ?b] => destruct (Rlt_bool_spec a b)
      | |- context [Rle_bool ?a ?b] => destruct (Rle_bool_spec a b)
      end; (split; [intros; try (intuition discriminate); repeat split; auto; lra|intros (_ & _ & HH); try (split; reflexivity); try reflexivity; exfalso; lra]).
Qed.
Print Assumptions C37_ieee.

(** A NaN bound passes every constructor (as long as the other bound is not
    negative), although the range is empty: the checker accepts nothing. *)
Theorem C37_nan_bound_refuted :
  forall t k lo hi, let nan := B754_nan : f64 in
    (lo = nan \/ no_nan lo /\ 0 <= place lo) -> (hi = nan \/ no_nan hi /\ 0 <= place hi) ->
    lo = nan \/ k <> ExclNo /\ hi = nan ->
    let c := mkChecker t k lo hi in ck_new ieee t k lo hi = Ok c /\ forall x, ck_ok ieee c x = false.
Proof.
  intros t k lo hi nan Hlo Hhi Hn c. subst c. split.
  - assert (G : forall y, y = nan \/ no_nan y /\ 0 <= place y -> Bltb y (d0 ieee) = false).
    { intros y [->|[N P]]; [reflexivity|]. rewrite lt_place by (assumption || reflexivity). apply Rlt_bool_false. exact P. }
    assert (N2 : forall y z, y = nan \/ z = nan -> Bltb y z = false /\ Bleb y z = false).
    { intros y z [->| ->]; [apply nan_lt_l|apply nan_lt_r]; reflexivity. }
    unfold ck_new. cbn [ieee ltD leD]. rewrite (G lo Hlo), (G hi Hhi).
    destruct k; [reflexivity|..]; (destruct (N2 hi lo) as [E1 E2]; [tauto|rewrite ?E1, ?E2; reflexivity]).
  - intros x. destruct (ck_ok ieee (mkChecker t k lo hi) x) eqn:E; [|reflexivity]. exfalso.
    apply C37_ieee in E. destruct E as (_ & [L H] & _). destruct Hn as [->|[HK ->]]; [discriminate L|].
    specialize (H HK). discriminate H.
Qed.
Print Assumptions C37_nan_bound_refuted.

(** C38 for doubles: checkers without NaN are proper keys. *)
Definition usable (c : checker f64) : Prop := ck_t c = TTdouble /\ bounds_ok (ck_k c) (ck_lo c) (ck_hi c).
Theorem C38_ieee :
  strict_weak usable (ck_lt ieee) /\
  forall a b, usable a -> usable b -> ck_lt ieee a b = Ok false -> ck_lt ieee b a = Ok false ->
    forall x, ck_ok ieee a x = ck_ok ieee b x.
Proof.
  destruct (C38_checker_order R R rar rar_linear) as [[S1 S2 S3 S4] EQ].
  assert (T : forall a, usable a -> ck_t (at_place a) = TTdouble) by (intros a [H _]; exact H).
  split; [split|].
  - intros a b [Ta Ba] [Tb Bb]. rewrite ck_lt_place by assumption. apply S1; assumption.
  - intros a [Ta Ba]. rewrite ck_lt_place by assumption. apply S2; assumption.
  - intros a b c [Ta Ba] [Tb Bb] [Tc Bc]. rewrite !ck_lt_place by assumption. apply S3; assumption.
  - intros a b c [Ta Ba] [Tb Bb] [Tc Bc]. rewrite !ck_lt_place by assumption. apply S4; assumption.
  - intros a b [Ta Ba] [Tb Bb] H1 H2 x. rewrite ck_lt_place in H1, H2 by assumption.
    rewrite !ck_ok_place by assumption. f_equal. now apply EQ.
Qed.
Print Assumptions C38_ieee.

(** C36 for doubles: every count printed is that of the contents at that moment. *)
Section Caches.
Context {C N : Type} (norm_of : C -> N) (count_of : (f64 -> bool) -> C -> nat) (moved : C -> C).
#[local] Notation step := (step ieee norm_of count_of moved).
#[local] Notation run := (run ieee norm_of count_of moved).
#[local] Ltac cases := unfold vset, eset in *; repeat match goal with
  | H : context [(?a =? ?b)%nat] |- _ => destruct (Nat.eqb_spec a b); subst
  | |- context [(?a =? ?b)%nat] => destruct (Nat.eqb_spec a b); subst
  end; try congruence.
Definition uentry (c : C) (kn : checker f64 * nat) : Prop :=
  usable (fst kn) /\ snd kn = count_of (ck_ok ieee (fst kn)) c.
Definition uinv (a : nat -> bool) (e : env (D:=f64) (C:=C) (N:=N)) : Prop :=
  forall v, List.Forall (uentry (o_c (e v))) (o_occ (e v)) /\ (a v = false -> o_occ (e v) = nil).
Definition uout (o : out f64 C N) : Prop := match o with OCount n k c => n = count_of (ck_ok ieee k) c | _ => True end.
(** Every count is asked with a checker that names no NaN. *)
Definition usable_op (x : op f64 C) : Prop := match x with GetCount _ k => usable k | _ => True end.
Hypothesis count_ext : forall p q c, (forall x, p x = q x) -> count_of p c = count_of q c.

Lemma ufind k l c : usable k -> List.Forall (uentry c) l ->
  map_find ieee k l = Ok None \/ map_find ieee k l = Ok (Some (count_of (ck_ok ieee k) c)).
Proof.
  destruct C38_ieee as [[SW _ _ _] EQ].
  intros Hk. induction 1 as [|[k' n] l [H1 H2] H IH]; [now left|]. cbn in H1, H2. cbn [map_find]. unfold ck_equiv.
  destruct (SW k k' Hk H1) as [[] E1]; rewrite E1; cbn [bind]; [exact IH|].
  destruct (SW k' k H1 Hk) as [[] E2]; rewrite E2; cbn [bind negb]; [exact IH|].
  right. rewrite H2. do 2 f_equal. apply count_ext. intros x. now apply EQ.
Qed.
Lemma ustep a e x : quiet a x -> usable_op x -> uinv a e ->
  exists e' o, step e x = Ok (e', o) /\ uinv (asked_count a x) e' /\ List.Forall uout o.
Proof.
  assert (NIL : forall c, List.Forall (uentry c) nil) by constructor.
  intros Q Li I. destruct x; cbn in *; unfold o_move, o_massign, o_swap, o_getNorm in *.
  - eexists _, _; split; [reflexivity|]. split; [|constructor]. intros w. specialize (I w). cases; cbn; auto.
  - eexists _, _; split; [reflexivity|]. split; [|constructor]. intros w. pose proof (I v) as [I1 I2]. specialize (I w). cases; cbn; auto.
    rewrite I2 by auto. auto.
  - eexists _, _; split; [reflexivity|]. split; [|constructor]. intros w. pose proof (I src) as Is. specialize (I w). cases; cbn; auto.
  - destruct Q as [Q NE]. eexists _, _; split; [reflexivity|]. split; [|constructor]. intros w. pose proof (I src) as [I1 I2]. specialize (I w). cases; cbn; auto.
    rewrite I2 by auto. auto.
  - destruct Q as (Q1 & Q2 & NE). eexists _, _; split; [reflexivity|]. split; [|constructor]. intros w.
    pose proof (I src) as [I1 I2]. pose proof (I v) as [I3 I4]. specialize (I w). cases; cbn; auto.
    + rewrite I4 by auto. auto.
    + rewrite I2 by auto. auto.
  - destruct Q as (Q1 & Q2 & NE). eexists _, _; split; [reflexivity|]. split; [|constructor]. intros u.
    pose proof (I w) as [I1 I2]. pose proof (I v) as [I3 I4]. specialize (I u). cases; cbn; auto.
    + rewrite I2 by auto. auto.
    + rewrite I4 by auto. auto.
  - pose proof (I v) as Iv. destruct (o_norm (e v)); (eexists _, _; split; [reflexivity|]);
      (split; [|constructor; [exact Logic.I|constructor]]); intros w; specialize (I w); cases; cbn; auto.
  - pose proof (I v) as [I1 I2]. unfold o_getCount. destruct (ufind k _ _ Li I1) as [E|E]; rewrite E; cbn [bind];
      (eexists _, _; split; [reflexivity|]); (split; [|constructor; [reflexivity|constructor]]); intros w; pose proof (I w) as Iw; cases; cbn; auto.
    + split; [constructor; [split; [exact Li|reflexivity]|exact I1]|discriminate].
    + split; [exact I1|discriminate].
  - eexists _, _; split; [reflexivity|]. split; [|constructor]. intros w. specialize (I w). cases; cbn; auto.
Qed.
Lemma urun l : forall a e, disciplined asked_count a l -> List.Forall usable_op l -> uinv a e ->
  exists e' o, run e l = Ok (e', o) /\ List.Forall uout o.
Proof.
  induction l as [|x l IH]; intros a e Q Li I; cbn [Check_Model.run].
  - eexists _, _. split; [reflexivity|constructor].
  - destruct Q as [Q1 Q2]. inversion Li as [|? ? L1 L2]; subst.
    destruct (ustep a e x Q1 L1 I) as (e1 & o1 & E1 & I1 & O1).
    destruct (IH _ e1 Q2 L2 I1) as (e2 & o2 & E2 & O2).
    rewrite E1. cbn [bind]. rewrite E2. cbn [bind]. eexists _, _. split; [reflexivity|]. apply List.Forall_app. auto.
Qed.
End Caches.

Theorem C36_ieee :
  forall (C N : Type) (norm_of : C -> N) (count_of : (f64 -> bool) -> C -> nat) moved (empty : C) (l : list (op f64 C)),
    (forall p q c, (forall x, p x = q x) -> count_of p c = count_of q c) ->
    disciplined asked_count (fun _ => false) l -> List.Forall usable_op l ->
    exists e o, run ieee norm_of count_of moved (start empty) l = Ok (e, o) /\
      forall n k c, List.In (OCount n k c) o -> n = count_of (ck_ok ieee k) c.
Proof.
  intros C N norm_of count_of moved empty l Hext Q Li.
  destruct (urun norm_of count_of moved Hext l _ (start empty) Q Li) as (e & o & E & O).
  { intros v. split; [constructor|reflexivity]. }
  exists e, o. split; [exact E|]. intros n k c HI. rewrite List.Forall_forall in O. exact (O _ HI).
Qed.
Print Assumptions C36_ieee.

(** C34 and NaN: a NaN element is above no threshold, so a window loses it,
    whatever type it gets and whatever the thresholds. *)
Theorem C34_nan_becomes_zero :
  forall exc dbg th (m : dense f64) r c f t,
    col_source m -> view m r c f -> full_ok m -> valid_thr ieee th -> zero_limits_agree th ->
    first_of (respects ieee th r c f) type_list t -> sh_sub (d_sh m) = true ->
    exists d g, convert ieee exc dbg th m = Ok d /\ dyn_ty d = t /\ rep ieee d r c g /\
      forall i j, (i < r)%nat -> (j < c)%nat -> is_nan (f i j) = true -> g i j = B754_zero false.
Proof.
  intros exc dbg th m r c f t HS HV HF HT ZA Ht Hsub.
  destruct (C34_conversion_elementwise _ _ ieee exc dbg th m r c f t HS HV HF HT ZA Ht) as (d & E & T & RP).
  exists d. eexists. split; [exact E|]. split; [exact T|]. split; [exact RP|].
  intros i j Hi Hj HN. cbv beta. rewrite Hsub.
  assert (NA : is_nan (Babs (f i j)) = true) by (now rewrite abs_nan).
  assert (L : large ieee th (f i j) = false) by (unfold large; cbn [ieee ltD absD]; apply nan_lt_r, NA).
  assert (M : medium ieee th (f i j) = false) by (unfold medium; cbn [ieee ltD leD absD]; destruct (nan_lt_r (sigD th) _ NA) as [-> _]; reflexivity).
  assert (P : ltD ieee (d0 ieee) (absD ieee (f i j)) = false) by (cbn [ieee ltD absD]; apply nan_lt_r, NA).
  unfold stored_as. rewrite L, M, P.
  destruct t as [[|[]|[]]|[|[]|[]] [|[]|[]]]; reflexivity.
Qed.
Print Assumptions C34_nan_becomes_zero.

(** So with the default settings a block of NaN becomes a zero matrix. *)
Theorem C34_nan_block_is_zero_refuted :
  forall exc dbg (m : dense f64) r c f,
    col_source m -> view m r c f -> full_ok m -> (1 <= r)%nat -> (1 <= c)%nat -> (Z.of_nat (r * c) < 2 ^ 63)%Z ->
    (forall i j, (i < r)%nat -> (j < c)%nat -> is_nan (f i j) = true) ->
    exists z, convert ieee exc dbg default_threshold m = Ok (DL (LZ z)) /\ z_rows z = r /\ z_cols z = c.
Proof.
  intros exc dbg m r c f HS HV HF Hr Hc HL HN. destruct default_valid as [HT (Z1 & Z2 & _)].
  assert (C0 : forall t, count2 r c (fun i j => ltD ieee t (absD ieee (f i j))) = 0%nat).
  { intros t. unfold count2.
    match goal with |- length (List.filter ?p ?l) = _ => assert (E : List.filter p l = nil) end; [|now rewrite E].
    assert (HP : forall q, List.In q (List.flat_map (fun i => List.map (fun j => (i, j)) (List.seq 0 c)) (List.seq 0 r)) ->
              (let '(i, j) := q in ltD ieee t (absD ieee (f i j))) = false).
    { intros [i j] H. apply List.in_flat_map in H. destruct H as (i' & Hi & H). apply List.in_map_iff in H. destruct H as (j' & E & Hj).
      injection E as -> ->. apply List.in_seq in Hi, Hj. cbn [ieee ltD absD]. apply nan_lt_r. rewrite abs_nan. apply HN; lia. }
    induction (List.flat_map _ _) as [|q l IH]; [reflexivity|]. cbn [List.filter]. rewrite HP by (now left). apply IH.
    intros q' Hq. apply HP. now right. }
  assert (Q0 : leD ieee (quotD ieee 0 (r * c)) (d0 ieee) = true).
  { cbn [ieee leD quotD d0]. destruct (nat64_ok (r * c) ltac:(nia) HL) as (E1 & E2 & E3 & _).
    change (nat64 0) with (B754_zero false : f64).
    destruct (nat64 (r * c)) as [| | |]; try discriminate; [exfalso; cbn in E3; lra|reflexivity]. }
  assert (HR : respects ieee default_threshold r c f (TL TZ) = true).
  { unfold respects, fraction_above. rewrite !C0. apply andb_true_iff. split; exact Q0. }
  destruct (C34_conversion_elementwise _ _ ieee exc dbg default_threshold m r c f (TL TZ) HS HV HF HT ltac:(red; congruence)) as (d & E & T & RP).
  { exists nil, (List.tl type_list). split; [reflexivity|]. split; [exact HR|]. intros u []. }
  destruct d as [[z|?|?|?|?]|? ? ? ?]; try discriminate. exists z. split; [exact E|].
  destruct RP as (R1 & R2 & _). auto.
Qed.
Print Assumptions C34_nan_block_is_zero_refuted.

Definition nan11 : dense f64 := mkDense (own_shape ColMajor 1 1) 1 [Some B754_nan] true.
Example C34_nan_nonvacuous :
  col_source nan11 /\ view nan11 1 1 (fun _ _ => B754_nan) /\ full_ok nan11 /\
  convert ieee true true default_threshold nan11 = Ok (DL (LZ (z_new 1 1))).
Proof.
  assert (M : is_mat nan11 1 1 (fun _ _ => B754_nan)).
  { split.
    - repeat split.
    - split; [reflexivity|]. split; [reflexivity|]. intros [|i] [|j] Hi Hj; cbn in Hi, Hj; try lia. reflexivity. }
  split; [apply src_mat; [exact (proj1 M)|reflexivity]|]. split; [exact (proj2 M)|]. split; [reflexivity|]. vm_compute. reflexivity.
Qed.
(** Further cases: the ranges and programs of C36-C38. *)
Example C37_ieee_nonvacuous :
  let two := Bplus mode_NE c1 c1 : f64 in
  bounds_ok ExclIncl c1 two /\ ck_new ieee TTdouble ExclIncl c1 two = Ok (mkChecker TTdouble ExclIncl c1 two) /\
  ck_new ieee TTdouble ExclIncl two c1 = Throw /\ ck_new ieee TTdouble ExclNo (B754_zero true) c1 = Ok (mkChecker TTdouble ExclNo (B754_zero true) c1) /\
  ck_ok ieee (mkChecker TTdouble ExclIncl c1 two) two = true /\ ck_ok ieee (mkChecker TTdouble ExclNo c1 c1) (B754_infinity true) = true /\
  ck_ok ieee (mkChecker TTdouble ExclNo (B754_zero false) c1) B754_nan = false.
Proof. cbv zeta. split; [split; reflexivity|]. repeat split; vm_compute; reflexivity. Qed.
Example C36_ieee_nonvacuous :
  let cnt (p : f64 -> bool) (c : list f64) := length (List.filter p c) in
  let k := mkChecker TTdouble ExclNo (B754_zero false) c1 in
  let k' := mkChecker TTdouble ExclNo (B754_zero true) c1 in
  let p := [New 0 [c1; B754_nan]; GetCount 0 k; GetCount 0 k'; Reset 0; Modify 0 (fun c => c1 :: c); GetCount 0 k'] in
  disciplined asked_count (fun _ => false) p /\ List.Forall usable_op p /\
  exists e, run ieee (fun _ => 0%nat) cnt (fun _ => nil) (start nil) p =
    Ok (e, [OCount 1 k [c1; B754_nan]; OCount 1 k' [c1; B754_nan]; OCount 2 k' [c1; c1; B754_nan]]).
Proof.
  cbv zeta. split; [cbn; auto 10|]. split.
  - repeat constructor; intros; try reflexivity.
  - eexists. reflexivity.
Qed.
