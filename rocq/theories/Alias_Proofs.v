(** Proofs about storages that share memory (Alias_Spec.v). *)
From Verif Require Import BaseLemmas Storage_Model Alias_Spec.

Section P.
  Context {T : Type}.
  Implicit Types (a : astate T) (regs : list (region T)) (hs : list (option handle)) (bs : list (block T)).

  (** The concrete storage object of a handle. *)
  Definition conc (h : handle) : stor :=
    match h with
    | HNone b => {| st_data := None; st_size := 0; st_own := b |}
    | HOwn r n => {| st_data := Some r; st_size := n; st_own := true |}
    | HView r n => {| st_data := Some r; st_size := n; st_own := false |}
    end.

  Definition owned hs i : Prop := exists s n, nth_error hs s = Some (Some (HOwn i n)).

  Lemma existsb_owned hs i : existsb (owns i) hs = true <-> owned hs i.
  Proof.
    rewrite existsb_exists. split.
    - intros (h & Hin & Ho). apply In_nth_error in Hin. destruct Hin as (s & Hs).
      destruct h as [[b|r n|r n]|]; cbn in Ho; try discriminate. apply Nat.eqb_eq in Ho. subst r. now exists s, n.
    - intros (s & n & Hs). exists (Some (HOwn i n)). split; [eapply nth_error_In; eassumption|]. cbn. apply Nat.eqb_refl.
  Qed.

  Record wf regs hs : Prop := {
    wf_own : forall s r n, nth_error hs s = Some (Some (HOwn r n)) ->
      exists g, nth_error regs r = Some g /\ r_kind g = Obtained /\ length (r_cells g) = n;
    wf_view : forall s r n, nth_error hs s = Some (Some (HView r n)) ->
      exists g, nth_error regs r = Some g /\ n <= length (r_cells g);
    wf_uniq : forall s s' r n n', nth_error hs s = Some (Some (HOwn r n)) -> nth_error hs s' = Some (Some (HOwn r n')) -> s = s'
  }.

  (** Blocks agree with regions, the live bit with ownership. *)
  Definition RB regs hs bs : Prop :=
    length bs = length regs /\
    forall i g, nth_error regs i = Some g ->
      exists k, nth_error bs i = Some k /\ b_cells k = r_cells g /\
        b_ext k = (match r_kind g with Caller => true | _ => false end) /\
        (b_live k = true <-> (r_kind g <> Obtained \/ owned hs i)).

  Lemma RB_memory a bs : RB (regions a) (handles a) bs <-> memory_is bs a.
  Proof.
    unfold RB, memory_is. apply and_iff_compat_l. split; intros H i g Hg; destruct (H i g Hg) as (k & Hk & Hc & He & Hl);
      exists k; (split; [exact Hk|]; split; [exact Hc|]; split; [exact He|]); unfold present in *; rewrite Hg in *.
    - destruct (r_kind g).
      + apply Hl. left; discriminate.
      + destruct (existsb (owns i) (handles a)) eqn:E.
        * apply existsb_owned in E. apply Hl. now right.
        * apply not_true_is_false. intros F. apply Hl in F. destruct F as [F|F]; [congruence|].
          apply existsb_owned in F. congruence.
      + apply Hl. left; discriminate.
    - rewrite Hl. destruct (r_kind g).
      + split; auto. intros _. left; discriminate.
      + rewrite existsb_owned. split; auto. intros [F|F]; [congruence|auto].
      + split; auto. intros _. left; discriminate.
  Qed.

  Lemma RB_ext regs hs hs' bs : (forall i, owned hs i <-> owned hs' i) -> RB regs hs bs -> RB regs hs' bs.
  Proof.
    intros E (Hl & H). split; auto. intros i g Hg. destruct (H i g Hg) as (k & A & B & C & L).
    exists k. rewrite <- E. auto.
  Qed.

  Lemma upd_cases {A} (l : list A) d x s z : nth_error (upd l d x) s = Some z ->
    (s = d /\ z = x) \/ (s <> d /\ nth_error l s = Some z).
  Proof.
    intros H. destruct (Nat.eq_dec s d) as [->|Hne].
    - left. assert (d < length l).
      { rewrite <- (upd_length l d x). apply nth_error_Some. congruence. }
      rewrite nth_error_upd_eq in H by lia. split; congruence.
    - right. rewrite nth_error_upd_ne in H by congruence. auto.
  Qed.

  Lemma snoc_cases {A} (l : list A) x s z : nth_error (l ++ [x]) s = Some z ->
    (s = length l /\ z = x) \/ (s < length l /\ nth_error l s = Some z).
  Proof.
    intros H. destruct (lt_dec s (length l)) as [L|L].
    - right. rewrite nth_error_app1 in H by lia. auto.
    - left. rewrite nth_error_app2 in H by lia. destruct (s - length l) as [|m] eqn:E.
      + cbn in H. split; [lia|congruence].
      + cbn in H. destruct m; discriminate.
  Qed.

  Lemma nth_lt {A} (l : list A) i z : nth_error l i = Some z -> i < length l.
  Proof. intros H. apply nth_error_Some. congruence. Qed.

  Lemma snoc_old {A} (l : list A) x s z : nth_error l s = Some z -> nth_error (l ++ [x]) s = Some z.
  Proof. intros H. rewrite nth_error_app1; auto. eapply nth_lt; eassumption. Qed.
  Lemma snoc_last {A} (l : list A) x : nth_error (l ++ [x]) (length l) = Some x.
  Proof. rewrite nth_error_app2 by lia. now rewrite Nat.sub_diag. Qed.

  (** Appending a region (with its block). *)
  Lemma RB_app regs hs bs g k :
    RB regs hs bs -> b_cells k = r_cells g -> b_ext k = (match r_kind g with Caller => true | _ => false end) ->
    (b_live k = true <-> (r_kind g <> Obtained \/ owned hs (length regs))) ->
    RB (regs ++ [g]) hs (bs ++ [k]).
  Proof.
    intros (Hl & H) A B C. split; [rewrite !app_length; cbn; lia|].
    intros i g' Hg. apply snoc_cases in Hg. destruct Hg as [[-> ->]|[L Hg]].
    - exists k. rewrite <- Hl at 1. split; [apply snoc_last|auto].
    - destruct (H i g' Hg) as (k' & Hk & R). exists k'. split; [now apply snoc_old|exact R].
  Qed.

  (** Releasing the memory of handle [d]. *)
  Definition release (h : handle) bs : res (list (block T)) :=
    if st_own (conc h) then h_free bs (st_data (conc h)) else Ok bs.

  Lemma release_ok regs hs bs d h : wf regs hs -> RB regs hs bs -> nth_error hs d = Some (Some h) ->
    exists bs', release h bs = Ok bs' /\ RB regs (upd hs d None) bs' /\
      (forall i k, nth_error bs i = Some k -> exists k', nth_error bs' i = Some k' /\ b_cells k' = b_cells k).
  Proof.
    intros W (Hl & H) Hd.
    assert (ND : forall i, (forall n, h <> HOwn i n) -> owned hs i <-> owned (upd hs d None) i).
    { intros i Hn. split; intros (s & n & Hs).
      - exists s, n. rewrite nth_error_upd_ne; auto. intros ->. rewrite Hd in Hs. injection Hs as ->. eapply Hn; eauto.
      - apply upd_cases in Hs. destruct Hs as [[_ E]|[_ Hs]]; [discriminate|]. now exists s, n. }
    destruct h as [b|r n|r n]; unfold release; cbn [conc st_own st_data].
    - exists bs. split; [destruct b; reflexivity|]. split; [|eauto].
      eapply RB_ext; [|split; [exact Hl|exact H]]. intros i; apply ND; discriminate.
    - destruct (wf_own _ _ W _ _ _ Hd) as (g & Hg & Kg & Lg).
      destruct (H r g Hg) as (k & Hk & Ck & Ek & Lk). rewrite Kg in Ek, Lk.
      assert (LV : b_live k = true) by (apply Lk; right; now exists d, n).
      cbn [h_free]. rewrite Hk, Ek, LV. eexists. split; [reflexivity|].
      assert (NO : ~ owned (upd hs d None) r).
      { intros (s & n' & Hs). apply upd_cases in Hs. destruct Hs as [[_ E]|[Hne Hs]]; [discriminate|].
        apply Hne. eapply (wf_uniq _ _ W); eassumption. }
      split; [split; [now rewrite upd_length|]|].
      + intros i g' Hg'. destruct (Nat.eq_dec i r) as [->|Hne].
        * rewrite Hg in Hg'. injection Hg' as <-. eexists. split; [apply nth_error_upd_eq; eapply nth_lt; eassumption|].
          cbn [b_cells b_ext b_live]. rewrite Kg. split; [exact Ck|]. split; [reflexivity|].
          split; [discriminate|]. intros [F|F]; [congruence|contradiction].
        * destruct (H i g' Hg') as (k' & Hk' & R1 & R2 & R3). exists k'. rewrite nth_error_upd_ne by congruence.
          rewrite <- ND; [auto|]. intros m E. injection E as E _. congruence.
      + intros i k' Hk'. destruct (Nat.eq_dec i r) as [->|Hne].
        * rewrite Hk in Hk'. injection Hk' as <-. eexists. split; [apply nth_error_upd_eq; eapply nth_lt; eassumption|]. reflexivity.
        * exists k'. rewrite nth_error_upd_ne by congruence. auto.
    - exists bs. split; [reflexivity|]. split; [|eauto].
      eapply RB_ext; [|split; [exact Hl|exact H]]. intros i; apply ND; discriminate.
  Qed.

  (** The new handle [HOwn (length regs) _] put over a released slot. *)
  Lemma RB_fresh_put regs hs bs d c : d < length hs -> wf regs hs -> RB regs (upd hs d None) bs ->
    RB (regs ++ [mkRegion Obtained c]) (upd hs d (Some (HOwn (length regs) (length c))))
       (bs ++ [{| b_live := true; b_ext := false; b_cells := c |}]).
  Proof.
    intros Ld W H.
    assert (RB regs (upd hs d (Some (HOwn (length regs) (length c)))) bs) as H1.
    { destruct H as (Hl & H). split; auto. intros i g Hg. destruct (H i g Hg) as (k & A & B & C & L).
      exists k. split; auto. split; auto. split; auto. rewrite L. apply or_iff_compat_l. split; intros (s & n & Hs).
      - apply upd_cases in Hs. destruct Hs as [[_ E]|[Hne Hs]]; [discriminate|]. exists s, n. rewrite nth_error_upd_ne; auto.
      - apply upd_cases in Hs. destruct Hs as [[_ E]|[Hne Hs]].
        + injection E as E _. apply nth_lt in Hg. lia.
        + exists s, n. rewrite nth_error_upd_ne; auto. }
    apply RB_app; auto. cbn. split; auto. intros _. right. exists d, (length c). now apply nth_error_upd_eq.
  Qed.

  Lemma RB_fresh_add regs hs bs c : wf regs hs -> RB regs hs bs ->
    RB (regs ++ [mkRegion Obtained c]) (hs ++ [Some (HOwn (length regs) (length c))])
       (bs ++ [{| b_live := true; b_ext := false; b_cells := c |}]).
  Proof.
    intros W H.
    assert (RB regs (hs ++ [Some (HOwn (length regs) (length c))]) bs) as H1.
    { destruct H as (Hl & H). split; auto. intros i g Hg. destruct (H i g Hg) as (k & A & B & C & L).
      exists k. split; auto. split; auto. split; auto. rewrite L. apply or_iff_compat_l. split; intros (s & n & Hs).
      - exists s, n. now apply snoc_old.
      - apply snoc_cases in Hs. destruct Hs as [[_ E]|[_ Hs]].
        + injection E as E _. apply nth_lt in Hg. lia.
        + now exists s, n. }
    apply RB_app; auto. cbn. split; auto. intros _. right. exists (length hs), (length c). apply snoc_last.
  Qed.

  (** Adding or placing a handle that owns nothing. *)
  Definition not_owner (h : option handle) : Prop := forall r n, h <> Some (HOwn r n).

  Lemma RB_add_non regs hs bs h : not_owner h -> RB regs hs bs -> RB regs (hs ++ [h]) bs.
  Proof.
    intros N. apply RB_ext. intros i. split; intros (s & n & Hs).
    - exists s, n. now apply snoc_old.
    - apply snoc_cases in Hs. destruct Hs as [[_ E]|[_ Hs]]; [edestruct N; eauto|now exists s, n].
  Qed.
  Lemma RB_put_non regs hs bs d h : not_owner h -> RB regs (upd hs d None) bs -> RB regs (upd hs d h) bs.
  Proof.
    intros N. apply RB_ext. intros i. split; intros (s & n & Hs); apply upd_cases in Hs.
    - destruct Hs as [[_ E]|[Hne Hs]]; [discriminate|]. exists s, n. rewrite nth_error_upd_ne; auto.
    - destruct Hs as [[_ E]|[Hne Hs]]; [edestruct N; eauto|]. exists s, n. rewrite nth_error_upd_ne; auto.
  Qed.

  (** wf of the changed handle lists. *)
  Definition hok regs (h : option handle) : Prop :=
    match h with
    | Some (HOwn r n) => exists g, nth_error regs r = Some g /\ r_kind g = Obtained /\ length (r_cells g) = n
    | Some (HView r n) => exists g, nth_error regs r = Some g /\ n <= length (r_cells g)
    | _ => True
    end.
  Lemma wf_iff regs hs : wf regs hs <->
    (forall s h, nth_error hs s = Some h -> hok regs h) /\
    (forall s s' r n n', nth_error hs s = Some (Some (HOwn r n)) -> nth_error hs s' = Some (Some (HOwn r n')) -> s = s').
  Proof.
    split.
    - intros [A B C]. split; auto. intros s [[b|r n|r n]|] Hs; cbn; eauto.
    - intros [A C]. constructor; auto; intros s r n Hs; exact (A _ _ Hs).
  Qed.
  Lemma wf_hok regs hs s h : wf regs hs -> nth_error hs s = Some h -> hok regs h.
  Proof. intros W. apply wf_iff in W. now apply W. Qed.

  Lemma hok_app regs g h : hok regs h -> hok (regs ++ [g]) h.
  Proof.
    destruct h as [[b|r n|r n]|]; cbn; auto; intros (x & Hx & R); exists x; (split; [now apply snoc_old|exact R]).
  Qed.
  Lemma wf_app regs hs g : wf regs hs -> wf (regs ++ [g]) hs.
  Proof.
    rewrite !wf_iff. intros [A B]. split; auto. intros s h Hs. apply hok_app. eauto.
  Qed.
  Lemma wf_upd regs hs d h : wf regs hs -> hok regs h ->
    (forall r n, h = Some (HOwn r n) -> forall s n', s <> d -> nth_error hs s <> Some (Some (HOwn r n'))) ->
    wf regs (upd hs d h).
  Proof.
    rewrite !wf_iff. intros [A B] O U. split.
    - intros s x Hs. apply upd_cases in Hs. destruct Hs as [[_ ->]|[_ Hs]]; eauto.
    - intros s s' r n n' H1 H2. apply upd_cases in H1, H2.
      destruct H1 as [[-> E1]|[N1 H1]], H2 as [[-> E2]|[N2 H2]]; auto.
      + exfalso. eapply (U r n (eq_sym E1) s'); eauto.
      + exfalso. eapply (U r n' (eq_sym E2) s); eauto.
      + eauto.
  Qed.
  Lemma wf_snoc regs hs h : wf regs hs -> hok regs h ->
    (forall r n, h = Some (HOwn r n) -> forall s n', nth_error hs s <> Some (Some (HOwn r n'))) ->
    wf regs (hs ++ [h]).
  Proof.
    rewrite !wf_iff. intros [A B] O U. split.
    - intros s x Hs. apply snoc_cases in Hs. destruct Hs as [[_ ->]|[_ Hs]]; eauto.
    - intros s s' r n n' H1 H2. apply snoc_cases in H1, H2.
      destruct H1 as [[-> E1]|[N1 H1]], H2 as [[-> E2]|[N2 H2]]; auto.
      + exfalso. eapply (U r n (eq_sym E1) s'); eauto.
      + exfalso. eapply (U r n' (eq_sym E2) s); eauto.
      + eauto.
  Qed.
  Lemma fresh_hok regs c : hok (regs ++ [mkRegion Obtained c]) (Some (HOwn (length regs) (length c))).
  Proof. exists (mkRegion Obtained c). split; [apply snoc_last|]. auto. Qed.
  Lemma fresh_not_owned regs hs : wf regs hs -> forall s n', nth_error hs s <> Some (Some (HOwn (length regs) n')).
  Proof.
    intros W s n' E. destruct (wf_own _ _ W _ _ _ E) as (g & Hg & _). apply nth_lt in Hg. lia.
  Qed.

  (** Reading through a handle. *)
  Lemma read_ok regs hs bs h c : RB regs hs bs -> hok regs (Some h) -> contents (mkA regs hs) h = Some c ->
    h_read bs (st_data (conc h)) (st_size (conc h)) = Ok c /\ length c = hsize h.
  Proof.
    intros (Hl & H) O E. destruct h as [b|r n|r n]; cbn [conc st_data st_size contents hsize regions] in *.
    - injection E as <-. split; reflexivity.
    - destruct O as (g & Hg & Kg & Lg). rewrite Hg in E. destruct (present _ r) eqn:P; [|discriminate]. injection E as <-.
      destruct (H r g Hg) as (k & Hk & Ck & Ek & Lk). split; [|rewrite firstn_length; lia].
      destruct n; [reflexivity|]. cbn [h_read]. rewrite Hk.
      assert (LV : b_live k = true).
      { apply Lk. unfold present in P. cbn [regions] in P. rewrite Hg, Kg in P. right. now apply existsb_owned. }
      rewrite LV, Ck. cbn [negb]. destruct (Nat.leb_spec (S n) (length (r_cells g))); [reflexivity|lia].
    - destruct O as (g & Hg & Lg). rewrite Hg in E. destruct (present _ r) eqn:P; [|discriminate]. injection E as <-.
      destruct (H r g Hg) as (k & Hk & Ck & Ek & Lk). split; [|rewrite firstn_length; lia].
      destruct n; [reflexivity|]. cbn [h_read]. rewrite Hk.
      assert (LV : b_live k = true).
      { apply Lk. unfold present in P. cbn [regions] in P. rewrite Hg in P.
        destruct (r_kind g); [left; discriminate| |left; discriminate]. right. now apply existsb_owned. }
      rewrite LV, Ck. cbn [negb]. destruct (Nat.leb_spec (S n) (length (r_cells g))); [reflexivity|lia].
  Qed.

  (** The cell behind a handle whose contents are there. *)
  Lemma block_of regs hs bs h c r : RB regs hs bs -> hok regs (Some h) -> contents (mkA regs hs) h = Some c ->
    st_data (conc h) = Some r ->
    exists g k, nth_error regs r = Some g /\ nth_error bs r = Some k /\ b_live k = true /\
      b_cells k = r_cells g /\ b_ext k = (match r_kind g with Caller => true | _ => false end) /\
      hsize h <= length (r_cells g) /\ c = firstn (hsize h) (r_cells g).
  Proof.
    intros (Hl & H) O E D.
    assert (exists n, (h = HOwn r n \/ h = HView r n)) as (n & HH).
    { destruct h as [b|r' n|r' n]; cbn in D; [discriminate| |]; injection D as ->; eauto. }
    assert (LE : exists g, nth_error regs r = Some g /\ n <= length (r_cells g)).
    { destruct HH as [-> | ->]; cbn in O; [destruct O as (g & A & _ & B); exists g; split; auto; lia|exact O]. }
    destruct LE as (g & Hg & LE). destruct (H r g Hg) as (k & Hk & Ck & Ek & Lk).
    exists g, k. split; auto. split; auto.
    assert (S : hsize h = n) by (destruct HH as [-> | ->]; reflexivity). rewrite S.
    assert (E' : (if present (mkA regs hs) r then Some (firstn n (r_cells g)) else None) = Some c).
    { destruct HH as [-> | ->]; cbn [contents regions] in E; rewrite Hg in E; exact E. }
    destruct (present _ r) eqn:P; [|discriminate]. injection E' as <-.
    split; [|auto]. apply Lk. unfold present in P. cbn [regions] in P. rewrite Hg in P.
    destruct (r_kind g); [left; discriminate| |left; discriminate]. right. now apply existsb_owned.
  Qed.

  (** Changing the cells of one region. *)
  Lemma RB_cells regs hs bs r g k c : RB regs hs bs -> nth_error regs r = Some g -> nth_error bs r = Some k ->
    b_live k = true ->
    RB (upd regs r (mkRegion (r_kind g) c)) hs (upd bs r {| b_live := true; b_ext := b_ext k; b_cells := c |}).
  Proof.
    intros (Hl & H) Hg Hk LV. split; [now rewrite !upd_length|].
    intros i g' Hg'. apply upd_cases in Hg'. destruct Hg' as [[-> ->]|[Hne Hg']].
    - eexists. split; [apply nth_error_upd_eq; eapply nth_lt; eassumption|]. cbn [b_cells b_ext b_live r_cells r_kind].
      destruct (H r g Hg) as (k' & Hk' & _ & Ek & Lk). rewrite Hk in Hk'. injection Hk' as <-.
      split; [reflexivity|]. split; [exact Ek|]. rewrite <- Lk. split; auto.
    - destruct (H i g' Hg') as (k' & Hk' & R). exists k'. rewrite nth_error_upd_ne by congruence. auto.
  Qed.
  Lemma wf_cells regs hs r g c : wf regs hs -> nth_error regs r = Some g -> length c = length (r_cells g) ->
    wf (upd regs r (mkRegion (r_kind g) c)) hs.
  Proof.
    rewrite !wf_iff. intros [A B] Hg Lc. split; auto. intros s h Hs. specialize (A s h Hs).
    destruct h as [[b|r' n|r' n]|]; cbn in *; auto; destruct A as (x & Hx & R);
      (destruct (Nat.eq_dec r' r) as [->|Hne];
       [rewrite Hg in Hx; injection Hx as <-; eexists;
        (split; [apply nth_error_upd_eq; eapply nth_lt; eassumption|cbn; rewrite Lc; exact R])
       |exists x; rewrite nth_error_upd_ne by congruence; auto]).
  Qed.

  (** ** The simulation *)
  Record Rel a (y : sys T) : Prop := {
    rel_wf : wf (regions a) (handles a);
    rel_mem : RB (regions a) (handles a) (blocks y);
    rel_obj : objs y = map (option_map conc) (handles a)
  }.

  Lemma live_get a y s h : Rel a y -> live a s = Some h ->
    nth_error (handles a) s = Some (Some h) /\ get_obj y s = Ok (conc h).
  Proof.
    intros R. unfold live. destruct (nth_error (handles a) s) as [[h'|]|] eqn:E; try discriminate.
    intros X; injection X as ->. split; auto. unfold get_obj. rewrite (rel_obj _ _ R).
    rewrite nth_error_map, E. reflexivity.
  Qed.

  Lemma map_upd {A B} (f : A -> B) l i v : map f (upd l i v) = upd (map f l) i (f v).
  Proof.
    revert i. induction l as [|x l IH]; intros [|i]; cbn; auto. now rewrite IH.
  Qed.

  Lemma eta a : mkA (regions a) (handles a) = a. Proof. now destruct a. Qed.

  Lemma fresh_add_rel a y c : Rel a y ->
    Rel (add (region_new a Obtained c) (fresh a c))
        (new_obj (blocks y ++ [{| b_live := true; b_ext := false; b_cells := c |}]) y
                 {| st_data := Some (length (blocks y)); st_size := length c; st_own := true |}).
  Proof.
    intros [W M O]. constructor; cbn [add region_new fresh regions handles blocks objs new_obj].
    - apply wf_snoc; [now apply wf_app|apply fresh_hok|]. intros r n E s n'. injection E as <- <-.
      now apply (fresh_not_owned (regions a)).
    - now apply RB_fresh_add.
    - rewrite map_app, O. cbn. now rewrite (proj1 M).
  Qed.

  Lemma stray_add_rel a y c : Rel a y ->
    Rel (add (region_new a Stray c) (HView (length (regions a)) (length c)))
        (new_obj (blocks y ++ [{| b_live := true; b_ext := false; b_cells := c |}]) y
                 {| st_data := Some (length (blocks y)); st_size := length c; st_own := false |}).
  Proof.
    intros [W M O]. constructor; cbn [add region_new fresh regions handles blocks objs new_obj].
    - apply wf_snoc; [now apply wf_app| |discriminate]. exists (mkRegion Stray c). split; [apply snoc_last|]. cbn; lia.
    - apply RB_add_non; [discriminate|]. apply RB_app; auto. cbn. split; auto. intros _; left; discriminate.
    - rewrite map_app, O. cbn. now rewrite (proj1 M).
  Qed.

  Lemma fresh_put_rel a y d h bs c : Rel a y -> nth_error (handles a) d = Some (Some h) ->
    release h (blocks y) = Ok bs -> RB (regions a) (upd (handles a) d None) bs ->
    Rel (put (region_new a Obtained c) d (Some (fresh a c)))
        {| blocks := bs ++ [{| b_live := true; b_ext := false; b_cells := c |}];
           objs := upd (objs y) d (Some {| st_data := Some (length bs); st_size := length c; st_own := true |}) |}.
  Proof.
    intros [W M O] Hd _ M'. constructor; cbn [put region_new fresh regions handles blocks objs].
    - apply wf_upd; [now apply wf_app|apply fresh_hok|]. intros r n E s n' _. injection E as <- <-.
      now apply (fresh_not_owned (regions a)).
    - apply RB_fresh_put; auto. eapply nth_lt; eassumption.
    - rewrite map_upd, O. cbn. now rewrite (proj1 M').
  Qed.

  Lemma owner_own h : free_to_resize h = st_own (conc h).
  Proof. now destruct h. Qed.
  Lemma conc_size h : st_size (conc h) = hsize h.
  Proof. now destruct h. Qed.

  Lemma move_owned hs d s h : nth_error hs s = Some (Some h) -> d <> s -> d < length hs ->
    forall i, owned (upd hs d None) i <-> owned (upd (upd hs d (Some h)) s (Some (HNone false))) i.
  Proof.
    intros Hs Hne Ld i. split; intros (t & n & Ht).
    - apply upd_cases in Ht. destruct Ht as [[_ E]|[N Ht]]; [discriminate|].
      destruct (Nat.eq_dec t s) as [->|N'].
      + rewrite Hs in Ht. injection Ht as ->. exists d, n. rewrite nth_error_upd_ne by congruence. now apply nth_error_upd_eq.
      + exists t, n. rewrite !nth_error_upd_ne by congruence. exact Ht.
    - apply upd_cases in Ht. destruct Ht as [[_ E]|[N Ht]]; [discriminate|]. apply upd_cases in Ht.
      destruct Ht as [[-> E]|[N' Ht]].
      + injection E as <-. exists s, n. now rewrite nth_error_upd_ne by congruence.
      + exists t, n. now rewrite nth_error_upd_ne by congruence.
  Qed.

  Lemma swap_owned hs d s h k : nth_error hs d = Some (Some h) -> nth_error hs s = Some (Some k) ->
    forall i, owned hs i <-> owned (upd (upd hs d (Some k)) s (Some h)) i.
  Proof.
    intros Hd Hs i. pose proof (nth_lt _ _ _ Hd). pose proof (nth_lt _ _ _ Hs). split; intros (t & n & Ht).
    - destruct (Nat.eq_dec t s) as [->|N].
      + rewrite Hs in Ht. injection Ht as ->. destruct (Nat.eq_dec d s) as [->|N'].
        * exists s, n. rewrite nth_error_upd_eq; [congruence|now rewrite upd_length].
        * exists d, n. rewrite nth_error_upd_ne by congruence. now apply nth_error_upd_eq.
      + destruct (Nat.eq_dec t d) as [->|N'].
        * rewrite Hd in Ht. injection Ht as ->. exists s, n. apply nth_error_upd_eq. now rewrite upd_length.
        * exists t, n. rewrite !nth_error_upd_ne by congruence. exact Ht.
    - apply upd_cases in Ht. destruct Ht as [[-> E]|[N Ht]].
      + injection E as <-. exists d, n. exact Hd.
      + apply upd_cases in Ht. destruct Ht as [[-> E]|[N' Ht]].
        * injection E as <-. exists s, n. exact Hs.
        * now exists t, n.
  Qed.

  Lemma swap_wf regs hs d s h k : wf regs hs -> nth_error hs d = Some (Some h) -> nth_error hs s = Some (Some k) ->
    wf regs (upd (upd hs d (Some k)) s (Some h)).
  Proof.
    intros W Hd Hs. pose proof (nth_lt _ _ _ Hd). pose proof (nth_lt _ _ _ Hs).
    assert (G : forall t x, nth_error (upd (upd hs d (Some k)) s (Some h)) t = Some x ->
      exists u, nth_error hs u = Some x /\ ((t = s /\ u = d) \/ (t <> s /\ t = d /\ u = s) \/ (t <> s /\ t <> d /\ u = t))).
    { intros t x Ht. apply upd_cases in Ht. destruct Ht as [[-> ->]|[N Ht]]; [exists d; auto 8|].
      apply upd_cases in Ht. destruct Ht as [[-> ->]|[N' Ht]]; [exists s; auto 8|exists t; auto 8]. }
    apply wf_iff. split.
    - intros t x Ht. destruct (G t x Ht) as (u & Hu & _). eapply wf_hok; eassumption.
    - intros t t' r n n' H1 H2. destruct (G _ _ H1) as (u & Hu & C1), (G _ _ H2) as (u' & Hu' & C2).
      pose proof (wf_uniq _ _ W _ _ _ _ _ Hu Hu') as <-.
      destruct C1 as [[? ?]|[[? [? ?]]|[? [? ?]]]], C2 as [[? ?]|[[? [? ?]]|[? [? ?]]]]; subst; auto; congruence.
  Qed.

  Lemma move_wf regs hs d s h : wf regs hs -> nth_error hs s = Some (Some h) ->
    wf regs (upd (upd hs d (Some h)) s (Some (HNone false))).
  Proof.
    intros W Hs. apply wf_iff. split.
    - intros t x Ht. apply upd_cases in Ht. destruct Ht as [[_ ->]|[_ Ht]]; [exact I|].
      apply upd_cases in Ht. destruct Ht as [[_ ->]|[_ Ht]]; [eapply wf_hok; eassumption|eapply wf_hok; eassumption].
    - intros t t' r n n' H1 H2. apply upd_cases in H1, H2.
      destruct H1 as [[_ E]|[N1 H1]]; [discriminate|]. destruct H2 as [[_ E]|[N2 H2]]; [discriminate|].
      apply upd_cases in H1, H2. destruct H1 as [[-> E1]|[M1 H1]], H2 as [[-> E2]|[M2 H2]]; auto.
      + injection E1 as <-. pose proof (wf_uniq _ _ W _ _ _ _ _ Hs H2). congruence.
      + injection E2 as <-. pose proof (wf_uniq _ _ W _ _ _ _ _ Hs H1). congruence.
      + eapply (wf_uniq _ _ W); eassumption.
  Qed.

  (** Access to one cell. *)
  Lemma cell_of regs hs bs h c i : RB regs hs bs -> hok regs (Some h) -> contents (mkA regs hs) h = Some c -> i < length c ->
    exists r g k, st_data (conc h) = Some r /\ h_cell bs (st_data (conc h)) i = Ok (r, k) /\ nth_error regs r = Some g /\
      nth_error bs r = Some k /\ b_live k = true /\ b_cells k = r_cells g /\
      b_ext k = (match r_kind g with Caller => true | _ => false end) /\ c = firstn (hsize h) (r_cells g) /\ i < length (r_cells g) /\ i < hsize h.
  Proof.
    intros M O E L.
    assert (exists r, st_data (conc h) = Some r) as (r & D).
    { destruct h; cbn in *; eauto. injection E as <-. cbn in L. lia. }
    destruct (block_of _ _ _ _ _ _ M O E D) as (g & k & Hg & Hk & LV & Ck & Ek & LE & ->).
    rewrite firstn_length in L. exists r, g, k. rewrite D. cbn [h_cell]. rewrite Hk, LV. cbn [negb].
    rewrite Ck. destruct (Nat.ltb_spec i (length (r_cells g))); [|lia]. repeat (split; auto). lia.
  Qed.

  Lemma write_rel a y h r g k c : Rel a y -> st_data (conc h) = Some r -> nth_error (regions a) r = Some g ->
    nth_error (blocks y) r = Some k -> b_live k = true -> length c = length (r_cells g) ->
    Rel (mkA (upd (regions a) r (mkRegion (r_kind g) c)) (handles a))
        {| blocks := upd (blocks y) r {| b_live := true; b_ext := b_ext k; b_cells := c |}; objs := objs y |}.
  Proof.
    intros [W M O] D Hg Hk LV Lc. constructor; cbn [regions handles blocks objs]; auto.
    - now apply wf_cells.
    - now apply RB_cells.
  Qed.

  Lemma write_eq a h r g f : st_data (conc h) = Some r -> nth_error (regions a) r = Some g ->
    write a h f = mkA (upd (regions a) r (mkRegion (r_kind g) (f (r_cells g)))) (handles a).
  Proof. intros D Hg. destruct h; cbn in D; try discriminate; injection D as ->; cbn; now rewrite Hg. Qed.

  Lemma put_rel_same a y d h : Rel a y -> nth_error (handles a) d = Some (Some h) -> forall bs,
    release h (blocks y) = Ok bs -> RB (regions a) (upd (handles a) d None) bs -> forall x,
    not_owner x -> hok (regions a) x ->
    Rel (put a d x) {| blocks := bs; objs := upd (objs y) d (option_map conc x) |}.
  Proof.
    intros [W M O] Hd bs _ M' x N K. constructor; cbn [put regions handles blocks objs].
    - apply wf_upd; auto. intros r n ->. edestruct N; reflexivity.
    - now apply RB_put_non.
    - now rewrite map_upd, O.
  Qed.

  Lemma astep_sim a y o a1 x : Rel a y -> astep a o = Some (a1, x) ->
    exists y1, step y o = Ok (y1, x) /\ Rel a1 y1.
  Proof.
    intros R E. destruct o as [|n|vs|s|s|s|vs|r n|s|s n|d s|d s|u w|s v|s i v|s i|s vs|s]; cbn [astep] in E.
    - injection E as <- <-. eexists; split; [reflexivity|]. destruct R as [W M O].
      constructor; cbn [s_default new_obj add regions handles blocks objs].
      + apply wf_snoc; [auto|exact I|discriminate].
      + apply RB_add_non; [discriminate|auto].
      + now rewrite map_app, O.
    - injection E as <- <-. eexists; split; [reflexivity|]. unfold s_fresh, h_alloc, alloc.
      apply fresh_add_rel; auto.
    - injection E as <- <-. eexists; split; [reflexivity|]. unfold s_fresh, h_alloc.
      apply fresh_add_rel; auto.
    - destruct (live a s) as [h|] eqn:L; [|discriminate]. destruct (contents a h) as [c|] eqn:C; [|discriminate].
      destruct (live_get _ _ _ _ R L) as (Hs & G). cbn [step]. unfold quiet, s_copy_ctor. rewrite G. cbn [bind].
      rewrite <- (eta a) in C. destruct (read_ok _ _ _ _ _ (rel_mem _ _ R) (wf_hok _ _ _ _ (rel_wf _ _ R) Hs) C) as (RD & LC).
      rewrite RD. cbn [bind h_alloc]. rewrite conc_size, <- LC, <- owner_own.
      destruct (free_to_resize h); injection E as <- <-; (eexists; split; [reflexivity|]).
      + now apply fresh_add_rel.
      + now apply stray_add_rel.
    - destruct (live a s) as [h|] eqn:L; [|discriminate]. injection E as <- <-.
      destruct (live_get _ _ _ _ R L) as (Hs & G). cbn [step]. unfold quiet, s_move_ctor. rewrite G. cbn [bind].
      eexists; split; [reflexivity|]. destruct R as [W M O]. pose proof (nth_lt _ _ _ Hs) as Ls.
      assert (EQ : upd (handles a ++ [Some h]) s (Some (HNone false)) = upd (handles a) s (Some (HNone false)) ++ [Some h]).
      { apply nth_error_ext. intros t. destruct (Nat.eq_dec t s) as [->|N].
        - rewrite nth_error_upd_eq by (rewrite app_length; cbn; lia).
          rewrite nth_error_app1 by (rewrite upd_length; lia). now rewrite nth_error_upd_eq.
        - rewrite nth_error_upd_ne by congruence. destruct (lt_dec t (length (handles a))).
          + rewrite !nth_error_app1 by (try rewrite upd_length; lia). now rewrite nth_error_upd_ne by congruence.
          + rewrite !nth_error_app2 by (try rewrite upd_length; lia). now rewrite upd_length. }
      constructor; cbn [put add set_obj new_obj regions handles blocks objs].
      + rewrite EQ. apply wf_snoc.
        * apply wf_upd; [auto|exact I|discriminate].
        * eapply wf_hok; eassumption.
        * intros r n X t n' Ht. injection X as ->. apply upd_cases in Ht. destruct Ht as [[_ X]|[N Ht]]; [discriminate|].
          apply N. eapply (wf_uniq _ _ W); eassumption.
      + rewrite EQ. revert M. apply RB_ext. intros i. split; intros (t & n & Ht).
        * destruct (Nat.eq_dec t s) as [->|N].
          -- rewrite Hs in Ht. injection Ht as ->. exists (length (handles a)), n.
             replace (length (handles a)) with (length (upd (handles a) s (Some (HNone false)))) by apply upd_length. apply snoc_last.
          -- exists t, n. apply snoc_old. now rewrite nth_error_upd_ne by congruence.
        * apply snoc_cases in Ht. destruct Ht as [[_ X]|[_ Ht]].
          -- injection X as <-. now exists s, n.
          -- apply upd_cases in Ht. destruct Ht as [[_ X]|[N Ht]]; [discriminate|now exists t, n].
      + rewrite map_upd, map_app, O. reflexivity.
    - destruct (live a s) as [h|] eqn:L; [|discriminate]. destruct (contents a h) as [c|] eqn:C; [|discriminate].
      destruct (live_get _ _ _ _ R L) as (Hs & G). cbn [step]. unfold quiet, s_conv_ctor. rewrite G. cbn [bind].
      rewrite <- (eta a) in C. destruct (read_ok _ _ _ _ _ (rel_mem _ _ R) (wf_hok _ _ _ _ (rel_wf _ _ R) Hs) C) as (RD & LC).
      rewrite RD. cbn [bind h_alloc]. rewrite conc_size, <- LC. injection E as <- <-. eexists; split; [reflexivity|].
      now apply fresh_add_rel.
    - injection E as <- <-. eexists; split; [reflexivity|]. destruct R as [W M O].
      constructor; cbn [region_new regions handles blocks objs]; auto.
      + now apply wf_app.
      + apply RB_app; auto. cbn. split; auto. intros _; left; discriminate.
    - destruct (nth_error (regions a) r) as [g|] eqn:Hg; [|discriminate]. destruct (r_kind g) eqn:K; try discriminate.
      destruct (Nat.leb_spec n (length (r_cells g))); [|discriminate]. injection E as <- <-. eexists; split; [reflexivity|].
      destruct R as [W M O]. constructor; cbn [add new_obj regions handles blocks objs].
      + apply wf_snoc; [auto|exists g; auto|discriminate].
      + apply RB_add_non; [discriminate|auto].
      + now rewrite map_app, O.
    - destruct (live a s) as [h|] eqn:L; [|discriminate]. injection E as <- <-.
      destruct (live_get _ _ _ _ R L) as (Hs & G). cbn [step]. rewrite G. cbn [bind]. eexists; split; [reflexivity|].
      destruct R as [W M O]. pose proof (wf_hok _ _ _ _ W Hs) as K.
      constructor; cbn [add new_obj regions handles blocks objs].
      + apply wf_snoc; [auto| |destruct h; discriminate].
        destruct h as [b|r n|r n]; cbn in *; auto. destruct K as (g & A & _ & B). exists g; split; auto; lia.
      + apply RB_add_non; [destruct h; discriminate|auto].
      + rewrite map_app, O. now destruct h.
    - destruct (live a s) as [h|] eqn:L; [|discriminate].
      destruct (live_get _ _ _ _ R L) as (Hs & G). cbn [step]. unfold s_resize. rewrite G. cbn [bind].
      rewrite conc_size, <- owner_own. destruct (hsize h =? n); [injection E as <- <-; eauto|].
      destruct (free_to_resize h) eqn:FR; cbn [negb]; [|injection E as <- <-; eauto].
      injection E as <- <-.
      destruct (release_ok _ _ _ _ _ (rel_wf _ _ R) (rel_mem _ _ R) Hs) as (bs & F & M' & _).
      assert (F' : (match st_data (conc h) with None => Ok (blocks y) | Some _ => h_free (blocks y) (st_data (conc h)) end) = Ok bs).
      { rewrite owner_own in FR. unfold release in F. rewrite FR in F. destruct (st_data (conc h)); auto. }
      rewrite F'. cbn [bind h_alloc]. eexists; split; [reflexivity|]. rewrite owner_own in FR. rewrite ?owner_own, ?FR.
      pose proof (fresh_put_rel a y s h bs (repeat None n) R Hs F M') as X. rewrite repeat_length in X. exact X.
    - destruct (live a d) as [l|] eqn:L1; [|discriminate]. destruct (live a s) as [h|] eqn:L2; [|discriminate].
      destruct (live_get _ _ _ _ R L1) as (Hd & G1). destruct (live_get _ _ _ _ R L2) as (Hs & G2).
      cbn [step]. unfold quiet, s_copy_assign. rewrite G1, G2. cbn [bind].
      destruct (Nat.eqb_spec d s) as [->|Hne]; [injection E as <- <-; cbn; eauto|].
      destruct (release_ok _ _ _ _ _ (rel_wf _ _ R) (rel_mem _ _ R) Hd) as (bs & F & M' & SC).
      unfold release in F. rewrite F. cbn [bind]. rewrite <- owner_own.
      destruct (free_to_resize h) eqn:FR.
      + destruct (contents a h) as [c|] eqn:C; [|discriminate]. injection E as <- <-.
        assert (K : hok (regions a) (Some h)) by (eapply wf_hok; [apply R|eassumption]).
        assert (RD : h_read bs (st_data (conc h)) (st_size (conc h)) = Ok c /\ length c = hsize h).
        { apply (read_ok (regions a) (upd (handles a) d None)); auto.
          destruct h as [b|r n|r n]; [exact C| |discriminate]. cbn [contents regions] in *.
          destruct (nth_error (regions a) r) as [g|] eqn:Hg; [|discriminate].
          destruct (present a r) eqn:P; [|discriminate]. injection C as <-.
          replace (present {| regions := regions a; handles := upd (handles a) d None |} r) with true; [reflexivity|].
          symmetry. unfold present. cbn [regions handles]. rewrite Hg. destruct (r_kind g); auto. apply existsb_owned.
          exists s, n. now rewrite nth_error_upd_ne by congruence. }
        destruct RD as (RD & LC). rewrite RD. cbn [bind h_alloc]. eexists; split; [reflexivity|].
        rewrite conc_size, <- LC. eapply fresh_put_rel; eauto.
      + injection E as <- <-. eexists; split; [reflexivity|].
        assert (Q : {| st_data := st_data (conc h); st_size := st_size (conc h); st_own := false |} = conc h)
          by (destruct h; cbn in *; congruence).
        rewrite Q.
        apply (put_rel_same a y d l R Hd bs F M' (Some h)).
        * intros r n X. injection X as ->. discriminate.
        * eapply wf_hok; [apply R|eassumption].
    - destruct (live a d) as [l|] eqn:L1; [|discriminate]. destruct (live a s) as [h|] eqn:L2; [|discriminate].
      destruct (live_get _ _ _ _ R L1) as (Hd & G1). destruct (live_get _ _ _ _ R L2) as (Hs & G2).
      injection E as <- <-. cbn [step]. unfold quiet, s_move_assign. rewrite G1, G2. cbn [bind].
      destruct (release_ok _ _ _ _ _ (rel_wf _ _ R) (rel_mem _ _ R) Hd) as (bs & F & M' & SC).
      unfold release in F. rewrite F. cbn [bind]. eexists; split; [reflexivity|].
      destruct R as [W M O]. constructor; cbn [put set_obj regions handles blocks objs].
      + now apply move_wf.
      + revert M'. apply RB_ext. destruct (Nat.eq_dec d s) as [->|Hne].
        * intros i. split; intros (t & n & Ht).
          -- apply upd_cases in Ht. destruct Ht as [[_ X]|[N Ht]]; [discriminate|]. exists t, n.
             now rewrite !nth_error_upd_ne by congruence.
          -- apply upd_cases in Ht. destruct Ht as [[_ X]|[N Ht]]; [discriminate|].
             apply upd_cases in Ht. destruct Ht as [[-> X]|[N' Ht]]; [congruence|]. exists t, n.
             now rewrite !nth_error_upd_ne by congruence.
        * apply move_owned; auto. eapply nth_lt; eassumption.
      + now rewrite !map_upd, O.
    - destruct (live a u) as [h|] eqn:L1; [|discriminate]. destruct (live a w) as [k|] eqn:L2; [|discriminate].
      destruct (live_get _ _ _ _ R L1) as (Hd & G1). destruct (live_get _ _ _ _ R L2) as (Hs & G2).
      injection E as <- <-. cbn [step]. unfold quiet, s_swap. rewrite G1, G2. cbn [bind].
      eexists; split; [reflexivity|]. destruct R as [W M O].
      constructor; cbn [put set_obj regions handles blocks objs].
      + now apply swap_wf.
      + revert M. apply RB_ext. now apply swap_owned.
      + now rewrite !map_upd, O.
    - destruct (live a s) as [h|] eqn:L; [|discriminate]. destruct (contents a h) as [c|] eqn:C; [|discriminate].
      destruct (live_get _ _ _ _ R L) as (Hs & G). injection E as <- <-. cbn [step]. unfold quiet, s_fill. rewrite G. cbn [bind].
      rewrite conc_size. rewrite <- (eta a) in C. pose proof (wf_hok _ _ _ _ (rel_wf _ _ R) Hs) as K.
      destruct h as [b|r n|r n].
      + cbn [conc st_data hsize repeat h_write bind write]. eexists; split; [reflexivity|]. now destruct y.
      + destruct (block_of _ _ _ _ _ _ (rel_mem _ _ R) K C eq_refl) as (g & k & Hg & Hk & LV & Ck & Ek & LE & ->).
        cbn [hsize] in *. rewrite (write_eq a (HOwn r n) r g) by auto. cbn [conc st_data hsize].
        assert (LL : length (repeat (Some v) n ++ skipn n (r_cells g)) = length (r_cells g))
          by (rewrite app_length, repeat_length, skipn_length; lia).
        destruct n as [|n].
        * cbn [repeat h_write bind]. eexists; split; [reflexivity|].
          pose proof (write_rel a y (HOwn r 0) r g k (r_cells g) R eq_refl Hg Hk LV eq_refl) as X.
          cbn [repeat skipn app]. rewrite <- Ck in X at 2.
          replace (upd (blocks y) r {| b_live := true; b_ext := b_ext k; b_cells := b_cells k |}) with (blocks y) in X; [exact X|].
          symmetry. apply nth_error_ext. intros t. destruct (Nat.eq_dec t r) as [->|N].
          { rewrite nth_error_upd_eq by (eapply nth_lt; eassumption). rewrite Hk. f_equal. destruct k; cbn in *; congruence. }
          { now rewrite nth_error_upd_ne by congruence. }
        * unfold h_write. cbn [repeat]. rewrite Hk, LV. cbn [negb]. change (Some v :: repeat (Some v) n) with (repeat (Some v) (S n)).
          rewrite repeat_length, Ck. destruct (Nat.leb_spec (S n) (length (r_cells g))); [|lia]. cbn [bind].
          eexists; split; [reflexivity|]. eapply (write_rel a y (HOwn r (S n))); eauto.
      + destruct (block_of _ _ _ _ _ _ (rel_mem _ _ R) K C eq_refl) as (g & k & Hg & Hk & LV & Ck & Ek & LE & ->).
        cbn [hsize] in *. rewrite (write_eq a (HView r n) r g) by auto. cbn [conc st_data hsize].
        assert (LL : length (repeat (Some v) n ++ skipn n (r_cells g)) = length (r_cells g))
          by (rewrite app_length, repeat_length, skipn_length; lia).
        destruct n as [|n].
        * cbn [repeat h_write bind]. eexists; split; [reflexivity|].
          pose proof (write_rel a y (HView r 0) r g k (r_cells g) R eq_refl Hg Hk LV eq_refl) as X.
          cbn [repeat skipn app]. rewrite <- Ck in X at 2.
          replace (upd (blocks y) r {| b_live := true; b_ext := b_ext k; b_cells := b_cells k |}) with (blocks y) in X; [exact X|].
          symmetry. apply nth_error_ext. intros t. destruct (Nat.eq_dec t r) as [->|N].
          { rewrite nth_error_upd_eq by (eapply nth_lt; eassumption). rewrite Hk. f_equal. destruct k; cbn in *; congruence. }
          { now rewrite nth_error_upd_ne by congruence. }
        * unfold h_write. cbn [repeat]. rewrite Hk, LV. cbn [negb]. change (Some v :: repeat (Some v) n) with (repeat (Some v) (S n)).
          rewrite repeat_length, Ck. destruct (Nat.leb_spec (S n) (length (r_cells g))); [|lia]. cbn [bind].
          eexists; split; [reflexivity|]. eapply (write_rel a y (HView r (S n))); eauto.
    - destruct (live a s) as [h|] eqn:L; [|discriminate]. destruct (contents a h) as [c|] eqn:C; [|discriminate].
      destruct (Nat.ltb_spec i (length c)) as [Li|Li]; [|discriminate].
      destruct (live_get _ _ _ _ R L) as (Hs & G). injection E as <- <-. cbn [step]. unfold quiet, s_write. rewrite G. cbn [bind].
      rewrite <- (eta a) in C.
      destruct (cell_of _ _ _ _ _ i (rel_mem _ _ R) (wf_hok _ _ _ _ (rel_wf _ _ R) Hs) C Li)
        as (r & g & k & D & HC & Hg & Hk & LV & Ck & Ek & -> & Lg & _).
      rewrite HC. cbn [bind]. eexists; split; [reflexivity|]. rewrite (write_eq a h r g) by auto. rewrite Ck.
      eapply (write_rel a y h); eauto. now rewrite upd_length.
    - destruct (live a s) as [h|] eqn:L; [|discriminate]. destruct (contents a h) as [c|] eqn:C; [|discriminate].
      destruct (nth_error c i) as [v|] eqn:Hv; [|discriminate].
      destruct (live_get _ _ _ _ R L) as (Hs & G). injection E as <- <-. cbn [step]. unfold s_read. rewrite G. cbn [bind].
      rewrite <- (eta a) in C.
      destruct (cell_of _ _ _ _ _ i (rel_mem _ _ R) (wf_hok _ _ _ _ (rel_wf _ _ R) Hs) C (nth_lt _ _ _ Hv))
        as (r & g & k & D & HC & Hg & Hk & LV & Ck & Ek & -> & Lg & Ls).
      rewrite HC. cbn [bind snd]. unfold rdc. rewrite Ck.
      assert (nth_error (r_cells g) i = Some v) as ->.
      { rewrite <- Hv. rewrite <- (firstn_skipn (hsize h) (r_cells g)) at 1. apply nth_error_app1. eapply nth_lt; eassumption. }
      cbn [bind]. eexists; split; [reflexivity|]. exact R.
    - destruct (live a s) as [h|] eqn:L; [|discriminate].
      destruct (live_get _ _ _ _ R L) as (Hs & G). injection E as <- <-. cbn [step]. unfold quiet, s_load. rewrite G. cbn [bind h_alloc].
      eexists; split; [reflexivity|].
      set (g' := match h with
             | HOwn r _ => match nth_error (regions a) r with Some g => upd (regions a) r (mkRegion Stray (r_cells g)) | None => regions a end
             | _ => regions a end).
      assert (LG : length g' = length (regions a)).
      { unfold g'. destruct h as [b|r n|r n]; auto. destruct (nth_error (regions a) r); auto. now rewrite upd_length. }
      destruct R as [W M O].
      (* the slot s emptied, its region stray: memory unchanged *)
      assert (M' : RB g' (upd (handles a) s None) (blocks y)).
      { destruct h as [b|r n|r n]; unfold g'.
        - revert M. apply RB_ext. intros i. split; intros (t & m & Ht).
          + exists t, m. rewrite nth_error_upd_ne; auto. intros ->. congruence.
          + apply upd_cases in Ht. destruct Ht as [[_ X]|[_ Ht]]; [discriminate|now exists t, m].
        - destruct (wf_own _ _ W _ _ _ Hs) as (g & Hg & Kg & Lg). rewrite Hg. destruct M as (Ml & M). split; [now rewrite upd_length|].
          intros i x Hx. apply upd_cases in Hx. destruct Hx as [[-> ->]|[N Hx]].
          + destruct (M r g Hg) as (k & Hk & Ck & Ek & Lk). exists k. cbn [r_cells r_kind]. rewrite Kg in Ek.
            split; auto. split; auto. split; auto. split; [intros _; left; discriminate|]. intros _. apply Lk. right. now exists s, n.
          + destruct (M i x Hx) as (k & Hk & Ck & Ek & Lk). exists k. split; auto. split; auto. split; auto.
            rewrite Lk. apply or_iff_compat_l. split; intros (t & m & Ht).
            * exists t, m. rewrite nth_error_upd_ne; auto. intros ->. congruence.
            * apply upd_cases in Ht. destruct Ht as [[_ X]|[_ Ht]]; [discriminate|now exists t, m].
        - revert M. apply RB_ext. intros i. split; intros (t & m & Ht).
          + exists t, m. rewrite nth_error_upd_ne; auto. intros ->. congruence.
          + apply upd_cases in Ht. destruct Ht as [[_ X]|[_ Ht]]; [discriminate|now exists t, m]. }
      assert (W' : wf g' (upd (handles a) s None)).
      { apply wf_iff. split.
        - intros t x Ht. apply upd_cases in Ht. destruct Ht as [[_ ->]|[N Ht]]; [exact I|].
          pose proof (wf_hok _ _ _ _ W Ht) as K. unfold g'. destruct h as [b|r n|r n]; auto.
          destruct (nth_error (regions a) r) as [g|] eqn:Hg; auto.
          destruct x as [[b'|r' n'|r' n']|]; cbn in *; auto; destruct K as (z & Hz & K).
          + exists z. rewrite nth_error_upd_ne; auto. intros ->. apply N. eapply (wf_uniq _ _ W); eassumption.
          + destruct (Nat.eq_dec r' r) as [->|N'].
            * eexists. split; [apply nth_error_upd_eq; eapply nth_lt; eassumption|]. cbn. congruence.
            * exists z. now rewrite nth_error_upd_ne by congruence.
        - intros t t' r n n' H1 H2. apply upd_cases in H1, H2.
          destruct H1 as [[_ X]|[_ H1]]; [discriminate|]. destruct H2 as [[_ X]|[_ H2]]; [discriminate|].
          eapply (wf_uniq _ _ W); eassumption. }
      assert (UU : forall v, upd (upd (handles a) s None) s v = upd (handles a) s v).
      { intros v. apply nth_error_ext. intros t. destruct (Nat.eq_dec t s) as [->|N].
        - rewrite !nth_error_upd_eq; auto; try rewrite upd_length; eapply nth_lt; eassumption.
        - now rewrite !nth_error_upd_ne by congruence. }
      constructor; cbn [put region_new fresh regions handles blocks objs].
      + unfold fresh. rewrite <- UU, <- LG. apply wf_upd; [now apply wf_app|apply fresh_hok|]. intros r n X t n' _. injection X as <- <-.
        now apply (fresh_not_owned g').
      + unfold fresh. rewrite <- UU, <- LG. apply RB_fresh_put; auto.
        * rewrite upd_length. eapply nth_lt; eassumption.
        * now rewrite UU.
      + rewrite map_upd, O. cbn. rewrite map_length, (proj1 M). reflexivity.
    - destruct (live a s) as [h|] eqn:L; [|discriminate].
      destruct (live_get _ _ _ _ R L) as (Hs & G). injection E as <- <-. cbn [step]. unfold quiet, s_destroy. rewrite G. cbn [bind].
      destruct (release_ok _ _ _ _ _ (rel_wf _ _ R) (rel_mem _ _ R) Hs) as (bs & F & M' & SC).
      assert (F' : (if st_own (conc h) then match st_data (conc h) with None => Ok (blocks y) | Some _ => h_free (blocks y) (st_data (conc h)) end
                    else Ok (blocks y)) = Ok bs).
      { unfold release in F. destruct (st_own (conc h)); auto. destruct (st_data (conc h)); auto. }
      rewrite F'. cbn [bind]. eexists; split; [reflexivity|].
      apply (put_rel_same a y s h R Hs bs F M' None); [discriminate|exact I].
  Qed.

  Lemma rel0 : Rel a0 sys0.
  Proof.
    constructor; cbn; auto.
    - apply wf_iff. split; intros [|s]; intros; discriminate.
    - split; auto. intros [|i] g; discriminate.
  Qed.

  Lemma arun_sim ops : forall a y a1 xs, Rel a y -> arun a ops = Some (a1, xs) ->
    exists y1, run y ops = Ok (y1, xs) /\ Rel a1 y1.
  Proof.
    induction ops as [|o ops IH]; intros a y a1 xs R E; cbn [arun run] in *.
    - injection E as <- <-. eauto.
    - destruct (astep a o) as [[a' x]|] eqn:S; [|discriminate].
      destruct (arun a' ops) as [[a2 xs']|] eqn:S'; [|discriminate]. injection E as <- <-.
      destruct (astep_sim _ _ _ _ _ R S) as (y1 & E1 & R1). destruct (IH _ _ _ _ R1 S') as (y2 & E2 & R2).
      rewrite E1. cbn [bind]. rewrite E2. cbn [bind]. eauto.
  Qed.

  Lemma alias_run ops a xs : arun a0 ops = Some (a, xs) ->
    exists y, run sys0 ops = Ok (y, xs) /\ memory_is (blocks y) a.
  Proof.
    intros E. destruct (arun_sim _ _ _ _ _ rel0 E) as (y & H & R). exists y. split; auto. apply RB_memory. apply R.
  Qed.
End P.
