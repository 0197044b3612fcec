From Coq Require Import Floats.SpecFloat.
From Verif Require Import Base BaseLemmas Dense_Model Dense_Spec Dense_Proofs Dense2_Proofs Norm_Spec Norm_Proofs IO_Proofs
  Sparse_Model Sparse_Spec Sparse_Proofs Sparse2_Proofs Sparse3_Proofs Eq_Model Eq_Spec.
From Coq Require Import Sorting.Sorted.

(** ** Elements *)
Lemma abs_round p em s m e : SFabs (binary_round p em s m e) = SFabs (binary_round p em false m e).
Proof.
  unfold binary_round. destruct (shl_align _ _ _) as [mz ez].
  unfold binary_round_aux. destruct (shr_fexp _ _ _ _ _) as [mrs' e'].
  destruct (shr_fexp _ _ _ _ _) as [mrs'' e'']. destruct (shr_m mrs''); simpl; auto.
  destruct (_ <=? _)%Z; reflexivity.
Qed.

Lemma abs_normalize p em m e : SFabs (binary_normalize p em (- m) e false) = SFabs (binary_normalize p em m e false).
Proof.
  destruct m; simpl; auto; rewrite (abs_round _ _ true); reflexivity.
Qed.

Lemma abs_sub_comm p em x y : SFabs (SFsub p em x y) = SFabs (SFsub p em y x).
Proof.
  destruct x as [sx|sx| |sx mx ex], y as [sy|sy| |sy my ey]; try (destruct sx, sy; reflexivity); try reflexivity.
  cbn [SFsub]. rewrite Z.min_comm.
  match goal with |- SFabs (binary_normalize _ _ ?a _ _) = SFabs (binary_normalize _ _ ?b _ _) =>
    replace a with (- b)%Z by lia end.
  apply abs_normalize.
Qed.

Lemma sub_self p em x : number x = true -> SFsub p em x x = S754_zero false.
Proof.
  destruct x as [s|s| |s m e]; try discriminate; intros _.
  - destruct s; reflexivity.
  - cbn [SFsub]. rewrite Z.sub_diag. reflexivity.
Qed.
Lemma sub_self_bad p em x : number x = false -> SFsub p em x x = S754_nan.
Proof. destruct x as [s|s| |s m e]; try discriminate; intros _; destruct s || idtac; reflexivity. Qed.

Lemma within_dd_sym x y : within_dd x y = within_dd y x.
Proof. unfold within_dd, sub64. now rewrite abs_sub_comm. Qed.
Lemma within_ff_sym x y : within_ff x y = within_ff y x.
Proof. unfold within_ff, sub32. now rewrite abs_sub_comm. Qed.
Lemma within_df_fd x y : within_df x y = within_fd y x.
Proof. unfold within_df, within_fd, sub64. now rewrite abs_sub_comm. Qed.

Lemma within_dd_refl x : within_dd x x = number x.
Proof.
  unfold within_dd, sub64. destruct (number x) eqn:E.
  - rewrite sub_self by auto. reflexivity.
  - rewrite sub_self_bad by auto. reflexivity.
Qed.
Lemma within_ff_refl x : within_ff x x = number x.
Proof.
  unfold within_ff, sub32. destruct (number x) eqn:E.
  - rewrite sub_self by auto. reflexivity.
  - rewrite sub_self_bad by auto. reflexivity.
Qed.

(** ** Dense *)
Lemma buf_equal_lists {T U} (eqv : T -> U -> bool) (a : list T) (b : list U) : length a = length b ->
  exists e, buf_equal eqv (map Some a) (map Some b) = Ok e /\
    (e = true <-> forall k x y, nth_error a k = Some x -> nth_error b k = Some y -> eqv x y = true).
Proof.
  revert b; induction a as [|x a IH]; intros [|y b] HL; try discriminate.
  - exists true. split; [reflexivity|]. split; auto. intros _ [|k] ? ?; discriminate.
  - simpl. destruct (eqv x y) eqn:E.
    + destruct (IH b) as (e & He & Hi); [simpl in HL; lia|]. exists e. split; auto. rewrite Hi. split.
      * intros H [|k] u v; simpl; [intros [= <-] [= <-]; auto | apply H].
      * intros H k. apply (H (S k)).
    + exists false. split; auto. split; [discriminate|]. intros H. specialize (H 0 x y eq_refl eq_refl). congruence.
Qed.

Lemma storage_all {T U} o r c (f : nat -> nat -> T) (g : nat -> nat -> U) (P : T -> U -> Prop) :
  (forall k x y, nth_error (in_storage_order o r c f) k = Some x ->
                 nth_error (in_storage_order o r c g) k = Some y -> P x y) <->
  (forall i j, i < r -> j < c -> P (f i j) (g i j)).
Proof.
  split.
  - intros H i j Hi Hj. apply (H (lin o r c i j)); now apply storage_nth.
  - intros H k x y. rewrite !storage_order_map, !nth_error_map_eq.
    destruct (nth_error (order o r c) k) as [[i j]|] eqn:E; [|discriminate].
    apply nth_error_In, in_order in E as [Hi Hj]. simpl. intros [= <-] [= <-]. auto.
Qed.

Lemma d_equal_spec {T U} (eqv : T -> U -> bool) (a : dense T) (b : dense U) r c f r' c' g :
  is_mat a r c f -> is_mat b r' c' g -> d_orient a = d_orient b ->
  exists e, d_equal eqv a b = Ok e /\
    (e = true <-> r = r' /\ c = c' /\ forall i j, i < r -> j < c -> eqv (f i j) (g i j) = true).
Proof.
  intros Ha Hb Ho. pose proof (buf_of_mat _ _ _ _ Ha) as Ea. pose proof (buf_of_mat _ _ _ _ Hb) as Eb.
  destruct Ha as [_ (Hr & Hc & _)]. destruct Hb as [_ (Hr' & Hc' & _)].
  unfold d_equal. rewrite Ea, Eb, !map_length, !storage_length, Hr, Hc, Hr', Hc'.
  destruct (Nat.eqb_spec (r * c) (r' * c')) as [E|E]; cbn [negb].
  - destruct (buf_equal_lists eqv (in_storage_order (d_orient a) r c f) (in_storage_order (d_orient b) r' c' g))
      as (e & -> & He); [now rewrite !storage_length|]. cbn [bind].
    eexists; split; [reflexivity|].
    rewrite !andb_true_iff, !Nat.eqb_eq. split.
    + intros [[He1 ->] ->]. do 2 (split; auto). rewrite He in He1. rewrite Ho in He1.
      exact (proj1 (storage_all _ _ _ f g (fun x y => eqv x y = true)) He1).
    + intros (-> & -> & H). split; [split|]; auto. apply He. rewrite Ho. apply (storage_all _ _ _ f g (fun x y => eqv x y = true)). auto.
  - exists false. split; auto. split; [discriminate|]. intros (-> & -> & _). congruence.
Qed.

(** ** Sparse *)
Lemma Forall2_length {A B} (P : A -> B -> Prop) l l' : Forall2 P l l' -> length l = length l'.
Proof. induction 1; simpl; auto. Qed.
Lemma arr_equal_lists {T U} (eqv : T -> U -> bool) (a : list T) (b : list U) :
  exists e, arr_equal eqv (map Some a) (map Some b) = Ok e /\
    (e = true <-> Forall2 (fun x y => eqv x y = true) a b).
Proof.
  unfold arr_equal. rewrite !map_length. destruct (Nat.eqb_spec (length a) (length b)) as [E|E]; simpl.
  - clear E. revert b; induction a as [|x a IH]; intros [|y b]; simpl.
    + exists true. split; auto. split; auto.
    + exists false. split; auto. split; [discriminate|]. intros H; inversion H.
    + exists false. split; auto. split; [discriminate|]. intros H; inversion H.
    + destruct (eqv x y) eqn:E.
      * destruct (IH b) as (e & -> & He). exists e; split; auto. rewrite He. split; intros H; [constructor; auto|].
        inversion H; auto.
      * exists false. split; auto. split; [discriminate|]. intros H; inversion H; congruence.
  - exists false. split; auto. split; [discriminate|]. intros H; apply Forall2_length in H; congruence.
Qed.

Lemma psum_hd {A} n (L : list (list A)) : hd 0 (psum n L) = n.
Proof. destruct L; reflexivity. Qed.
Lemma psum_inj {A B} (LA : list (list A)) (LB : list (list B)) : forall n, psum n LA = psum n LB -> map (@length A) LA = map (@length B) LB.
Proof.
  revert LB; induction LA as [|a LA IH]; intros [|b LB] n H; simpl in *; auto.
  - apply (f_equal (@length nat)) in H. simpl in H. rewrite psum_length in H. discriminate.
  - apply (f_equal (@length nat)) in H. simpl in H. rewrite psum_length in H. discriminate.
  - inversion H as [H1]. pose proof (f_equal (hd 0) H1) as H2. rewrite !psum_hd in H2.
    assert (length a = length b) as E by lia. rewrite E in H1 |- *. f_equal. eapply IH; eauto.
Qed.
Lemma psum_len {A B} (LA : list (list A)) (LB : list (list B)) : forall n, map (@length A) LA = map (@length B) LB -> psum n LA = psum n LB.
Proof.
  revert LB; induction LA as [|a LA IH]; intros [|b LB] n H; simpl in *; try discriminate; auto.
  inversion H. now rewrite H1, (IH LB).
Qed.

Lemma Forall2_eqb (a b : list nat) : Forall2 (fun x y => (x =? y) = true) a b <-> a = b.
Proof.
  split.
  - induction 1; auto. apply Nat.eqb_eq in H. congruence.
  - intros ->. induction b; constructor; auto. apply Nat.eqb_refl.
Qed.

Lemma Forall2_concat {A B} (P : A -> B -> Prop) (LA : list (list A)) (LB : list (list B)) :
  map (@length A) LA = map (@length B) LB ->
  (Forall2 P (concat LA) (concat LB) <-> Forall2 (Forall2 P) LA LB).
Proof.
  revert LB; induction LA as [|a LA IH]; intros [|b LB] H; simpl in *; try discriminate.
  - split; auto.
  - inversion H as [[H1 H2]]. split.
    + intros HF. apply Forall2_app_inv_l in HF as (b1 & b2 & F1 & F2 & E).
      assert (b1 = b /\ b2 = concat LB) as [-> ->].
      { apply Forall2_length in F1. assert (length b1 = length b) as HL by lia.
        apply (f_equal (fun z => (firstn (length b) z, skipn (length b) z))) in E.
        rewrite !firstn_app, !skipn_app, !firstn_all, !skipn_all, Nat.sub_diag in E.
        rewrite <- HL, !firstn_all, !skipn_all, Nat.sub_diag in E. simpl in E. rewrite !app_nil_r in E. now inversion E. }
      constructor; auto. apply IH; auto.
    + intros HF. inversion HF; subst. apply Forall2_app; auto. apply IH; auto.
Qed.

Lemma Forall2_both {A B} (P : A -> B -> Prop) (f : A -> nat) (g : B -> nat) la lb :
  Forall2 (fun x y => f x = g y /\ P x y) la lb <-> (map f la = map g lb /\ Forall2 P la lb).
Proof.
  split.
  - induction 1 as [|x y la lb [H1 H2] HF [IH1 IH2]]; simpl; split; auto; congruence || constructor; auto.
  - intros [E HF]. induction HF; simpl in *; constructor; inversion E; auto.
Qed.

Lemma Forall2_mapped {A B C D} (P : C -> D -> Prop) (f : A -> C) (g : B -> D) la lb :
  Forall2 P (map f la) (map g lb) <-> Forall2 (fun x y => P (f x) (g y)) la lb.
Proof.
  split.
  - revert lb; induction la as [|x la IH]; intros [|y lb] H; inversion H; subst; constructor; auto.
  - induction 1; simpl; constructor; auto.
Qed.


Lemma line_both {T U} (eqv : T -> U -> bool) (la : list (nat * T)) (lb : list (nat * U)) :
  StronglySorted lt (map fst la) -> StronglySorted lt (map fst lb) ->
  (Forall2 (fun x y => fst x = fst y /\ eqv (snd x) (snd y) = true) la lb <->
   forall k, In k (map fst la ++ map fst lb) -> both eqv (lk k la) (lk k lb)).
Proof.
  intros SA SB. split.
  - intros HF k _. clear SA SB. induction HF as [|[k1 v1] [k2 v2] la lb [E1 E2] HF IH]; [exact I|].
    simpl in E1, E2. subst k2. rewrite !lk_cons. destruct (k1 =? k); auto.
  - revert lb SB; induction la as [|[ka va] la IH]; intros [|[kb vb] lb] SB H.
    + constructor.
    + exfalso. specialize (H kb). rewrite lk_cons, Nat.eqb_refl in H. apply H. now left.
    + exfalso. specialize (H ka). rewrite lk_cons, Nat.eqb_refl in H. apply H. now left.
    + simpl in SA, SB. inversion SA as [|? ? SA' FA]; subst. inversion SB as [|? ? SB' FB]; subst.
      destruct (lt_eq_lt_dec ka kb) as [[Hlt| -> ]|Hlt].
      * exfalso. specialize (H ka). rewrite lk_cons, Nat.eqb_refl in H. rewrite (lk_lt ka ((kb, vb) :: lb)) in H.
        { apply H. now left. }
        simpl. constructor; auto. eapply Forall_impl; [|exact FB]. simpl; intros; lia.
      * assert (Hv : eqv va vb = true).
        { specialize (H kb). rewrite !lk_cons, Nat.eqb_refl in H. apply H. now left. }
        constructor; auto. apply IH; auto. intros k Hk.
        destruct (Nat.eq_dec k kb) as [->|Hne].
        -- rewrite (lk_lt kb la), (lk_lt kb lb) by auto. exact I.
        -- specialize (H k). rewrite !lk_cons in H. destruct (Nat.eqb_spec kb k); [congruence|].
           apply H. simpl. apply in_app_or in Hk. right. apply in_or_app. simpl. tauto.
      * exfalso. specialize (H kb). rewrite (lk_lt kb ((ka, va) :: la)) in H.
        { rewrite lk_cons, Nat.eqb_refl in H. apply H. simpl. right. apply in_or_app. right. now left. }
        simpl. constructor; auto. eapply Forall_impl; [|exact FA]. simpl; intros; lia.
Qed.

Lemma repr_compact {T} (s : sparse T) L : repr s L -> length L = s_minor s -> compact s ->
  s_val s = map Some (map snd (concat L)) /\ s_key s = map Some (map fst (concat L)).
Proof.
  intros HR HL HC. pose proof HR as (Ho & tv & tk & Hv & Hk & Ht).
  unfold compact in HC. rewrite <- HL, (repr_off s L HR), start_all in HC by lia. inversion HC as [HN].
  unfold s_nnz in HN. rewrite Hv, app_length, map_length in HN.
  destruct tv; [|simpl in HN; lia]. destruct tk; [|discriminate].
  rewrite Hv, Hk, !app_nil_r, !map_map. auto.
Qed.

Lemma sp_equal_spec {T U} (eqv : T -> U -> bool) (a : sparse T) (b : sparse U) r c f g :
  sp_mat a r c f -> sp_mat b r c g -> s_o a = s_o b -> compact a -> compact b ->
  exists e, sp_equal eqv a b = Ok e /\
    (e = true <-> forall i j, i < r -> j < c -> both eqv (f i j) (g i j)).
Proof.
  intros Ha Hb Ho Ca Cb.
  destruct (proj1 (sp_mat_lines a r c f) Ha) as (_ & _ & _ & LA & RA & NA & OA & DA).
  destruct (proj1 (sp_mat_lines b r c g) Hb) as (_ & _ & _ & LB & RB & NB & OB & DB).
  pose proof Ha as (_ & Ra & Ka & _). pose proof Hb as (_ & Rb & Kb & _).
  destruct (repr_compact a LA RA NA Ca) as [Va Qa]. destruct (repr_compact b LB RB NB Cb) as [Vb Qb].
  assert (Hmin : s_minor a = s_minor b) by (unfold s_minor; rewrite Ho, Ra, Ka, Rb, Kb; reflexivity).
  assert (Hmaj : s_major a = s_major b) by (unfold s_major; rewrite Ho, Ra, Ka, Rb, Kb; reflexivity).
  assert (Main : exists e, sp_equal eqv a b = Ok e /\
      (e = true <-> Forall2 (Forall2 (fun x y => fst x = fst y /\ eqv (snd x) (snd y) = true)) LA LB)).
  { unfold sp_equal. rewrite (proj1 RA), (proj1 RB), Va, Vb, Qa, Qb.
    destruct (arr_equal_lists Nat.eqb (psum 0 LA) (psum 0 LB)) as (e1 & -> & H1). cbn [bind].
    rewrite Forall2_eqb in H1.
    destruct e1.
    2:{ exists false. split; auto. split; [discriminate|]. intros HF. apply H1.
        apply psum_len. clear -HF. induction HF as [|x y LA LB HF' _ IH]; simpl; auto. f_equal; auto. eapply Forall2_length; eauto. }
    apply proj1 in H1. specialize (H1 eq_refl). apply psum_inj in H1.
    destruct (arr_equal_lists Nat.eqb (map fst (concat LA)) (map fst (concat LB))) as (e2 & -> & H2). cbn [bind].
    rewrite Forall2_eqb in H2. 
    pose proof (Forall2_concat (fun x y => fst x = fst y /\ eqv (snd x) (snd y) = true) LA LB H1) as FC.
    rewrite (Forall2_both (fun x y => eqv (snd x) (snd y) = true) fst fst) in FC.
    destruct e2.
    2:{ exists false. split; auto. split; [discriminate|]. intros E; apply FC in E as [E _]. apply H2; exact E. }
    destruct (arr_equal_lists eqv (map snd (concat LA)) (map snd (concat LB))) as (e3 & -> & H3).
    exists e3. split; auto. rewrite H3, Forall2_mapped. split; [|intros E; apply FC in E; tauto].
    intros H. apply FC. split; auto. tauto. }
  destruct Main as (e & -> & He). exists e; split; auto. rewrite He.
  assert (Lines : Forall2 (Forall2 (fun x y => fst x = fst y /\ eqv (snd x) (snd y) = true)) LA LB <->
                  forall l k, l < s_minor a -> k < s_major a -> both eqv (lk k (nth l LA [])) (lk k (nth l LB []))).
  { clear He DA DB. assert (NB' : length LB = length LA) by lia. rewrite <- NA. rewrite Hmaj in OA |- *.
    clear - OA OB NB'. revert LB OB NB'. induction LA as [|la LA IH]; intros [|lb LB] OB NB; simpl in NB; try discriminate.
    - split; [|constructor]. intros _ l k Hl. simpl in Hl. lia.
    - inversion OA as [|? ? [Sa Fa] OA']; subst. inversion OB as [|? ? [Sb Fb] OB']; subst.
      specialize (IH OA' LB OB' ltac:(lia)).
      assert (HL : Forall2 (fun x y => fst x = fst y /\ eqv (snd x) (snd y) = true) la lb <->
                   forall k, k < s_major b -> both eqv (lk k la) (lk k lb)).
      { rewrite line_both by auto. split.
        - intros H k _. destruct (in_dec Nat.eq_dec k (map fst la ++ map fst lb)) as [Hi|Hn]; auto.
          rewrite !lk_None; [exact I| |]; intros Q; apply Hn, in_or_app; auto.
        - intros H k Hk. apply H. apply in_app_or in Hk as [Hk|Hk].
          + eapply Forall_forall in Fa; eauto. + eapply Forall_forall in Fb; eauto. }
      split.
      + intros HF l k Hl Hk. inversion HF; subst. destruct l as [|l]; simpl.
        * now apply HL. * apply IH; auto. simpl in Hl; lia.
      + intros H. constructor.
        * apply HL. intros k Hk. apply (H 0 k); auto. simpl; lia.
        * apply IH. intros l k Hl Hk. apply (H (S l) k); auto. simpl; lia. }
  rewrite Lines. unfold denotes in DA, DB. rewrite Ra, Ka in DA. rewrite Rb, Kb in DB.
  assert (Ek : forall i j, key_of b i j = key_of a i j) by (intros; unfold key_of; now rewrite Ho).
  assert (El : forall i j, line_of b i j = line_of a i j) by (intros; unfold line_of; now rewrite Ho).
  split.
  - intros H i j Hi Hj. rewrite DA, DB, Ek, El by auto. apply H.
    + apply line_of_lt; congruence. + apply key_of_lt; congruence.
  - intros H l k Hl Hk. unfold s_minor in Hl. unfold s_major in Hk.
    destruct (s_o a) eqn:Eo.
    + specialize (H l k ltac:(lia) ltac:(lia)). rewrite DA, DB, Ek, El in H by lia.
      unfold key_of, line_of in H. rewrite Eo in H. exact H.
    + specialize (H k l ltac:(lia) ltac:(lia)). rewrite DA, DB, Ek, El in H by lia.
      unfold key_of, line_of in H. rewrite Eo in H. exact H.
Qed.
