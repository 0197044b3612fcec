(** Property C83 once more: on what exactly the threads that share a const matrix
    collide.  [race_at] is [race] of Race_Model.v (NormPolicy.h 20-46, 50-52,
    OccupationPolicy.h 18-29, 58) for one member of the matrix. *)
From Verif Require Import BaseLemmas Race_Spec Race_Proofs Check_Props.

Section R.
Context {F D : Type} (ar : arith F D) (L : linear ar) {C N : Type}.
Context (norm_of : C -> N) (count_of : (D -> bool) -> C -> nat).
Hypothesis count_ext : forall p q c, (forall x, p x = q x) -> count_of p c = count_of q c.
Implicit Types (s : shared D C N) (y : rsys D C N).

(** Two threads are about to touch the member [x], and one of them writes it. *)
Definition race_at (std : bool) y (x : loc) : Prop :=
  exists t u p q w w', t <> u /\
    hd_error (th_code (r_th y t)) = Some p /\ hd_error (th_code (r_th y u)) = Some q /\
    In (x, w) (accesses ar std (r_sh y) p) /\ In (x, w') (accesses ar std (r_sh y) q) /\ w || w' = true.
Definition reachable_at (std : bool) s (qs : nat -> list (ask D)) (x : loc) : Prop :=
  exists l y, rrun ar norm_of count_of (rinit s qs) l = Ok y /\ race_at std y x.

Definition two_norms s (qs : nat -> list (ask D)) : Prop :=
  sh_flag s = false /\ exists t u, t <> u /\ In AskNorm (qs t) /\ In AskNorm (qs u).
Definition two_counts (std : bool) s (qs : nat -> list (ask D)) : Prop :=
  exists t u k k', t <> u /\ In (AskCount k) (qs t) /\ In (AskCount k') (qs u) /\ (std = true \/ ~ cached ar k (sh_map s)).

Lemma at_only_if std s0 qs sp y x : (forall u, Forall listed (qs u)) -> RInv ar norm_of count_of s0 qs sp y -> race_at std y x ->
  match x with LElems => False | LNorm | LFlag => two_norms s0 qs | LMap => two_counts std s0 qs end.
Proof.
  intros LQ I0 (t & u & p & q & w & w' & N0 & Hp & Hq & Ap & Aq & W).
  destruct (head_open ar norm_of count_of _ _ _ _ _ _ I0 Hp) as (a & Ia & Oa). destruct (head_open ar norm_of count_of _ _ _ _ _ _ I0 Hq) as (b & Ib & Ob).
  assert (NC : forall k, ck_t k = TTdouble -> cached ar k (sh_map (r_sh y)) ->
     match map_find ar k (sh_map (r_sh y)) with Ok (Some _) => false | _ => true end = false).
  { clear - I0 L count_ext. intros k LK O.
    destruct (find_spec ar L count_of count_ext (sh_c (r_sh y)) k (sh_map (r_sh y)) LK (proj2 (ri_con _ _ _ _ _ _ _ I0))) as [[_ B]|[E _]]; [contradiction|]. now rewrite E. }
  assert (La : listed a) by (pose proof (LQ t) as X; rewrite Forall_forall in X; auto).
  assert (Lb : listed b) by (pose proof (LQ u) as X; rewrite Forall_forall in X; auto).
  destruct p as [| | | | |k|k|k|]; cbn [accesses In] in Ap; repeat (destruct Ap as [Ap|Ap]; [injection Ap as <- <-|]); try contradiction;
  (destruct q as [| | | | |k2|k2|k2|]; cbn [accesses In] in Aq; repeat (destruct Aq as [Aq|Aq]; [try discriminate Aq; injection Aq as <-|]); try contradiction; try discriminate W);
  (destruct a as [|ka|]; cbn [at_ok] in Oa; try contradiction); (destruct b as [|kb|]; cbn [at_ok] in Ob; try contradiction).
  all: try (split; [tauto|]; exists t, u; auto; fail).
  all: repeat match goal with H : _ /\ _ |- _ => destruct H end; subst.
  all: try (rewrite (NC ka) in W by assumption).
  all: try (rewrite (NC kb) in W by assumption).
  all: rewrite ?orb_false_r, ?orb_false_l in W; try discriminate W.
  all: try (exists t, u, ka, kb; split; [exact N0|]; split; [assumption|]; split; [assumption|]; tauto).
  all: try (exists u, t, kb, ka; split; [auto|]; split; [assumption|]; split; [assumption|]; tauto).
  all: exists t, u, ka, kb; split; [exact N0|]; split; [assumption|]; split; [assumption|]; left; destruct std; [reflexivity|discriminate W].
Qed.

(** Two threads that ask for the norm of a matrix that has none yet: they can
    collide on the flag, and on the norm itself. *)
Lemma norm_if std s qs x : x = LNorm \/ x = LFlag -> consistent ar norm_of count_of s -> (forall u, Forall listed (qs u)) ->
  two_norms s qs -> reachable_at std s qs x.
Proof.
  intros Hx C0 LQ (F0 & t & u & N0 & It & Iu).
  destruct (first_such is_norm (qs t)) as (p1 & q1 & r1 & Q1 & H1 & B1); [exists AskNorm; auto|].
  destruct (first_such is_norm (qs u)) as (p2 & q2 & r2 & Q2 & H2 & B2); [exists AskNorm; auto|].
  destruct q1; try discriminate H1. destruct q2; try discriminate H2.
  destruct (alone ar L norm_of count_of count_ext s qs t AskNorm r1 LQ p1 _ _ (RInv0 ar norm_of count_of s qs C0) Q1) as (l1 & y1 & sp1 & S1 & I1 & OT1 & R1 & E1 & F1 & _).
  { cbn. now rewrite Q1. }
  destruct (OT1 u) as [X1 X2]; [auto|].
  destruct (alone ar L norm_of count_of count_ext s qs u AskNorm r2 LQ p2 sp1 y1 I1) as (l2 & y2 & sp2 & S2 & I2 & OT2 & R2 & E2 & F2 & _).
  { now rewrite X1. } { rewrite X2. cbn. now rewrite Q2. }
  destruct (OT2 t) as [X3 X4]; [auto|].
  assert (Fl : sh_flag (r_sh y2) = false).
  { rewrite F2; [rewrite F1; [exact F0|]|]; intros X; [specialize (B1 _ X)|specialize (B2 _ X)]; discriminate. }
  assert (Et : th_code (r_th y2 t) = PNorm1 :: map enter r1) by (rewrite X4, E1; reflexivity).
  assert (Eu : th_code (r_th y2 u) = PNorm1 :: map enter r2) by exact E2.
  assert (Nut : (u =? t) = false) by (apply Nat.eqb_neq; auto).
  assert (Ntu : (t =? u) = false) by (apply Nat.eqb_neq; auto).
  destruct Hx as [-> | ->].
  - (* both before they write norm_ *)
    exists (l1 ++ l2 ++ [t; t; u; u]). eexists. split.
    + rewrite rrun_app, S1. cbn [bind]. rewrite rrun_app, S2. cbn [bind Race_Model.rrun]. unfold Race_Model.rstep at 1. rewrite Et.
      cbn [Race_Model.micro bind fst snd]. rewrite Fl. unfold Race_Model.rstep at 1. cbn [r_th r_sh]. rewrite Nat.eqb_refl.
      cbn [th_code Race_Model.micro bind fst snd]. rewrite Fl. unfold Race_Model.rstep at 1. cbn [r_th r_sh]. rewrite Nut, Eu.
      cbn [th_code Race_Model.micro bind fst snd]. rewrite Fl. unfold Race_Model.rstep at 1. cbn [r_th r_sh]. rewrite Nat.eqb_refl.
      cbn [th_code Race_Model.micro bind fst snd]. rewrite Fl. reflexivity.
    + exists t, u, PNorm3, PNorm3, true, true. split; [exact N0|]. cbn [r_th r_sh]. rewrite !Nat.eqb_refl, ?Ntu, ?Nut, ?Nat.eqb_refl.
      split; [reflexivity|]. split; [reflexivity|]. cbn. auto.
  - exists (l1 ++ l2 ++ [t; t; t]). eexists. split.
    + rewrite rrun_app, S1. cbn [bind]. rewrite rrun_app, S2. cbn [bind Race_Model.rrun]. unfold Race_Model.rstep at 1. rewrite Et.
      cbn [Race_Model.micro bind fst snd]. rewrite Fl. unfold Race_Model.rstep at 1. cbn [r_th r_sh]. rewrite Nat.eqb_refl.
      cbn [th_code Race_Model.micro bind fst snd]. rewrite Fl. unfold Race_Model.rstep at 1. cbn [r_th r_sh]. rewrite Nat.eqb_refl.
      cbn [th_code Race_Model.micro bind fst snd]. reflexivity.
    + exists t, u, PNorm4, PNorm1, true, false. split; [exact N0|]. cbn [r_th r_sh]. rewrite Nat.eqb_refl, Nut.
      split; [reflexivity|]. split; [rewrite Eu; reflexivity|]. cbn. auto.
Qed.

Lemma count_if std s qs : consistent ar norm_of count_of s -> (forall u, Forall listed (qs u)) ->
  two_counts std s qs -> reachable_at std s qs LMap.
Proof.
  intros C0 LQ (t & u & k & k' & N0 & It & Iu & H). pose proof C0 as CC. destruct CC as [CF CM].
  assert (LK : forall v j, In (AskCount j) (qs v) -> ck_t j = TTdouble).
  { intros v j HI. pose proof (LQ v) as X. rewrite Forall_forall in X. exact (X _ HI). }
  assert (HU : exists p2 k2 r2, qs u = p2 ++ AskCount k2 :: r2 /\ free_count ar (sh_map s) p2).
  { destruct (first_such is_count (qs u)) as (p2 & q2 & r2 & Q2 & H2 & B2); [exists (AskCount k'); auto|].
    destruct q2 as [|k2|]; try discriminate H2. exists p2, k2, r2. split; [exact Q2|]. intros j HI. specialize (B2 _ HI). discriminate. }
  assert (HT : exists p1 k1 r1, qs t = p1 ++ AskCount k1 :: r1 /\ free_count ar (sh_map s) p1 /\ (std = true \/ ~ cached ar k1 (sh_map s))).
  { destruct H as [Hs|Hn].
    - destruct (first_such is_count (qs t)) as (p2 & q2 & r2 & Q2 & H2 & B2); [exists (AskCount k); auto|].
      destruct q2 as [|k2|]; try discriminate H2. exists p2, k2, r2. split; [exact Q2|]. split; [|auto]. intros j HI. specialize (B2 _ HI). discriminate.
    - destruct (first_such (is_new ar (sh_map s)) (qs t)) as (p2 & q2 & r2 & Q2 & H2 & B2).
      { exists (AskCount k). split; [exact It|]. apply (is_new_spec ar L count_of count_ext (sh_c s)); auto. eapply LK; eauto. }
      destruct q2 as [|k2|]; try discriminate H2. exists p2, k2, r2. split; [exact Q2|]. split.
      + intros j HI. specialize (B2 _ HI). destruct (find_spec ar L count_of count_ext (sh_c s) j (sh_map s)) as [[E X]|[E X]]; auto.
        * apply (LK t). rewrite Q2. apply in_or_app. now left.
        * cbn in B2. rewrite E in B2. discriminate.
      + right. apply (is_new_spec ar L count_of count_ext (sh_c s)); auto. apply (LK t). rewrite Q2. apply in_or_app. right. now left. }
  destruct HU as (p2 & k2 & r2 & Q2 & B2). destruct HT as (p1 & k1 & r1 & Q1 & B1 & H1).
  destruct (alone ar L norm_of count_of count_ext s qs t (AskCount k1) r1 LQ p1 _ _ (RInv0 ar norm_of count_of s qs (conj CF CM)) Q1) as (l1 & y1 & sp1 & S1 & I1 & OT1 & R1 & E1 & _ & M1).
  { cbn. now rewrite Q1. }
  destruct (OT1 u) as [X1 X2]; [auto|]. specialize (M1 B1). cbn in M1.
  destruct (alone ar L norm_of count_of count_ext s qs u (AskCount k2) r2 LQ p2 sp1 y1 I1) as (l2 & y2 & sp2 & S2 & I2 & OT2 & R2 & E2 & _ & M2).
  { now rewrite X1. } { rewrite X2. cbn. now rewrite Q2. }
  destruct (OT2 t) as [X3 X4]; [auto|]. rewrite M1 in M2. specialize (M2 B2).
  assert (Et : th_code (r_th y2 t) = PCount1 k1 :: map enter r1) by (rewrite X4, E1; reflexivity).
  assert (Eu : th_code (r_th y2 u) = PCount1 k2 :: map enter r2) by exact E2.
  assert (Nut : (u =? t) = false) by (apply Nat.eqb_neq; auto).
  assert (K1 : ck_t k1 = TTdouble) by (apply (LK t); rewrite Q1; apply in_or_app; right; now left).
  destruct (find_spec ar L count_of count_ext (sh_c s) k1 (sh_map s) K1 CM) as [[E X]|[E X]];
    (exists (l1 ++ l2 ++ [t]); eexists; split;
     [rewrite rrun_app, S1; cbn [bind]; rewrite rrun_app, S2; cbn [bind Race_Model.rrun]; unfold Race_Model.rstep at 1; rewrite Et;
      cbn [Race_Model.micro bind fst snd]; rewrite M2, E; cbn [bind fst snd]; reflexivity|]).
  - exists t, u, (PCount3 k1), (PCount1 k2), true, false. split; [exact N0|]. cbn [r_th r_sh]. rewrite Nat.eqb_refl, Nut.
    split; [reflexivity|]. split; [rewrite Eu; reflexivity|]. cbn. auto.
  - destruct H1 as [-> | H1]; [|contradiction].
    exists t, u, (PCount2 k1), (PCount1 k2), true, false. split; [exact N0|]. cbn [r_th r_sh]. rewrite Nat.eqb_refl, Nut.
    split; [reflexivity|]. split; [rewrite Eu; reflexivity|]. cbn. auto.
Qed.
End R.

(** On the elements threads never collide; on the norm, and on the flag that says
    whether it is up to date, exactly if the norm has not been asked before and
    two threads ask it; on the table of counts exactly if two threads ask for
    occupations and - where the library takes operator[] of a map for a
    modification: nothing more; elsewhere - one of them asks a range that has not
    been asked before. *)
Theorem C83_race_exact :
  forall (F D : Type) (ar : arith F D), linear ar ->
  forall (C N : Type) (norm_of : C -> N) (count_of : (D -> bool) -> C -> nat),
    (forall p q c, (forall x, p x = q x) -> count_of p c = count_of q c) ->
  forall (std : bool) (s : shared D C N) (qs : nat -> list (ask D)),
    consistent ar norm_of count_of s -> (forall t, Forall listed (qs t)) ->
    let reach := reachable_at ar norm_of count_of std s qs in
    ~ reach LElems /\
    (reach LNorm <-> sh_flag s = false /\ exists t u, t <> u /\ In AskNorm (qs t) /\ In AskNorm (qs u)) /\
    (reach LFlag <-> sh_flag s = false /\ exists t u, t <> u /\ In AskNorm (qs t) /\ In AskNorm (qs u)) /\
    (reach LMap <-> exists t u k k', t <> u /\ In (AskCount k) (qs t) /\ In (AskCount k') (qs u) /\
                                     (std = true \/ ~ cached ar k (sh_map s))).
Proof.
  intros F D ar L C N norm_of count_of EX std s qs C0 LQ reach.
  assert (OI : forall x, reach x -> match x with LElems => False | LNorm | LFlag => two_norms s qs | LMap => two_counts ar std s qs end).
  { intros x (l & y & R & RC).
    destruct (rrun_ok ar L norm_of count_of EX s qs LQ l _ _ (RInv0 ar norm_of count_of s qs C0)) as (y1 & sp & R1 & I0 & _).
    rewrite R in R1. injection R1 as <-. exact (at_only_if ar L norm_of count_of EX std s qs sp y x LQ I0 RC). }
  split; [exact (OI LElems)|]. split; [|split]; split.
  - exact (OI LNorm).
  - intros H. apply (norm_if ar L norm_of count_of EX); auto.
  - exact (OI LFlag).
  - intros H. apply (norm_if ar L norm_of count_of EX); auto.
  - exact (OI LMap).
  - intros H. apply (count_if ar L norm_of count_of EX); auto.
Qed.
Print Assumptions C83_race_exact.

(** A new matrix, a thread that asks its norm twice and then the elements, one that
    asks the norm, one that asks an occupation: races on the norm and the flag, none
    on the table. *)
Definition three_asks (t : nat) : list (ask Z) :=
  match t with 0 => [AskNorm; AskNorm; AskElems] | 1 => [AskElems; AskNorm] | 2 => [AskCount (zgt 1)] | _ => [] end.
Example C83_exact_nonvacuous :
  let z := mkShared (N := Z) [3; -4]%Z 0%Z false [] in
  consistent zchk (fun c => fold_right Z.add 0%Z (map Z.abs c)) (fun p c => length (filter p c)) z /\
  (forall t, Forall listed (three_asks t)) /\
  reachable_at zchk (fun c => fold_right Z.add 0%Z (map Z.abs c)) (fun p c => length (filter p c)) true z three_asks LNorm /\
  ~ reachable_at zchk (fun c => fold_right Z.add 0%Z (map Z.abs c)) (fun p c => length (filter p c)) true z three_asks LMap.
Proof.
  cbn zeta.
  assert (CO : consistent zchk (fun c => fold_right Z.add 0%Z (map Z.abs c)) (fun p c => length (filter p c)) (mkShared (N := Z) [3; -4]%Z 0%Z false [])).
  { split; cbn; [discriminate|intros k n []]. }
  assert (LQ : forall t, Forall listed (three_asks t)).
  { intros [|[|[|t]]]; cbn; repeat constructor. }
  assert (EX : forall (p q : Z -> bool) c, (forall x, p x = q x) -> length (filter p c) = length (filter q c)).
  { intros p q c H. f_equal. induction c as [|x c IH]; cbn; [reflexivity|]. now rewrite H, IH. }
  destruct (C83_race_exact _ _ zchk zchk_linear _ _ (fun c => fold_right Z.add 0%Z (map Z.abs c)) (fun p c => length (filter p c)) EX true
              (mkShared (N := Z) [3; -4]%Z 0%Z false []) three_asks CO LQ) as (_ & HN & _ & HM).
  split; [exact CO|]. split; [exact LQ|]. split.
  - apply HN. split; [reflexivity|]. exists 0, 1. cbn. auto.
  - intros X. apply HM in X. destruct X as (t & u & k & k' & N0 & H1 & H2 & _).
    destruct t as [|[|[|t]]]; cbn in H1; [intuition discriminate|intuition discriminate| |contradiction].
    destruct u as [|[|[|u]]]; cbn in H2; [intuition discriminate|intuition discriminate| |contradiction]. now apply N0.
Qed.
