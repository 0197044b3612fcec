(** Proofs about the choice of the borders. *)
From Coq Require Import Sorting.Sorted.
From Verif Require Import Base BaseLemmas Dense_Model Dense_Spec Bsg_Model Bsg_Spec.

#[local] Arguments Nat.ltb : simpl never.
#[local] Arguments Nat.leb : simpl never.
#[local] Arguments Nat.eqb : simpl never.
Definition ss (l : list nat) := StronglySorted lt l.

Lemma set_ins_In x l y : In y (set_ins x l) <-> y = x \/ In y l.
Proof.
  induction l as [|z t IH]; cbn [set_ins].
  { cbn. intuition. }
  destruct (Nat.ltb_spec x z); [cbn; intuition|].
  destruct (Nat.eqb_spec x z) as [E|E]; [subst; cbn; intuition|]. cbn. rewrite IH. intuition.
Qed.
Lemma set_ins_ss x l : ss l -> ss (set_ins x l).
Proof.
  unfold ss. induction l as [|z t IH]; cbn [set_ins]; intros H; [repeat constructor|].
  inversion H as [|? ? H1 H2]; subst.
  destruct (Nat.ltb_spec x z).
  - constructor; [assumption|]. constructor; [assumption|]. eapply Forall_impl; [|exact H2]. cbn. lia.
  - destruct (Nat.eqb_spec x z); [assumption|]. constructor; [now apply IH|].
    apply Forall_forall. intros y Hy. apply set_ins_In in Hy as [->|Hy]; [lia|].
    rewrite Forall_forall in H2. now apply H2.
Qed.
Lemma set_del_In x l y : In y (set_del x l) <-> In y l /\ y <> x.
Proof.
  unfold set_del. rewrite filter_In. destruct (Nat.eqb_spec y x); cbn; intuition.
Qed.
Lemma set_mem_In x l : set_mem x l = true <-> In x l.
Proof.
  unfold set_mem. rewrite existsb_exists. split.
  - intros (y & Hy & E). apply Nat.eqb_eq in E. now subst.
  - intros H. exists x. split; [assumption|apply Nat.eqb_refl].
Qed.
Lemma set_mem_nIn x l : set_mem x l = false <-> ~ In x l.
Proof. rewrite <- set_mem_In. destruct (set_mem x l); intuition. Qed.

Lemma ss_nodup l : ss l -> NoDup l.
Proof.
  induction 1 as [|x t H IH HF]; constructor; auto. intros Hx. rewrite Forall_forall in HF. apply HF in Hx. lia.
Qed.
Lemma ss_filter p l : ss l -> ss (filter p l).
Proof.
  unfold ss. induction 1 as [|x t H IH HF]; cbn; [constructor|]. destruct (p x); [|assumption].
  constructor; [assumption|]. apply Forall_forall. intros y Hy. apply filter_In in Hy as [Hy _].
  rewrite Forall_forall in HF. now apply HF.
Qed.
Lemma ss_app_inv l x : ss (l ++ [x]) -> forall y, In y l -> y < x.
Proof.
  unfold ss. induction l as [|z t IH]; cbn; [intuition|]. intros H y [->|Hy].
  - inversion H as [|? ? H1 H2]; subst. rewrite Forall_forall in H2. apply H2. apply in_or_app. right. now left.
  - inversion H as [|? ? H1 H2]; subst. now apply IH.
Qed.

Lemma set_below_ok l x : ss l -> (exists y, In y l /\ y < x) ->
  exists y, set_below l x = Ok y /\ In y l /\ y < x /\ forall z, In z l -> z < x -> z <= y.
Proof.
  intros Hs (w & Hw & Lw). unfold set_below.
  pose proof (ss_filter (fun y => y <? x) l Hs) as Hf.
  assert (Hin : forall z, In z l -> z < x -> In z (filter (fun y => y <? x) l)).
  { intros z Hz Lz. apply filter_In. split; [assumption|]. now apply Nat.ltb_lt. }
  pose proof (Hin w Hw Lw) as Hw'.
  destruct (rev (filter (fun y => y <? x) l)) as [|y t] eqn:E.
  - apply (f_equal (@rev nat)) in E. rewrite rev_involutive in E. rewrite E in Hw'. destruct Hw'.
  - apply (f_equal (@rev nat)) in E. rewrite rev_involutive in E. cbn in E.
    assert (Hy : In y (filter (fun y => y <? x) l)) by (rewrite E; apply in_or_app; right; now left).
    apply filter_In in Hy as [Hy Ly]. apply Nat.ltb_lt in Ly.
    exists y. split; [reflexivity|]. split; [assumption|]. split; [assumption|].
    intros z Hz Lz. apply Hin in Hz; [|assumption]. rewrite E in Hz, Hf.
    apply in_app_or in Hz as [Hz|[->|[]]]; [|lia]. apply ss_app_inv with (2 := Hz) in Hf. lia.
Qed.
Lemma set_above_ok l x : ss l -> (exists y, In y l /\ x < y) ->
  exists y, set_above l x = Ok y /\ In y l /\ x < y /\ forall z, In z l -> x < z -> y <= z.
Proof.
  intros Hs (w & Hw & Lw). unfold set_above.
  pose proof (ss_filter (fun y => x <? y) l Hs) as Hf.
  assert (Hin : forall z, In z l -> x < z -> In z (filter (fun y => x <? y) l)).
  { intros z Hz Lz. apply filter_In. split; [assumption|]. now apply Nat.ltb_lt. }
  pose proof (Hin w Hw Lw) as Hw'.
  destruct (filter (fun y => x <? y) l) as [|y t] eqn:E; [destruct Hw'|].
  assert (Hy : In y (filter (fun y => x <? y) l)) by (rewrite E; now left).
  apply filter_In in Hy as [Hy Ly]. apply Nat.ltb_lt in Ly.
  exists y. split; [reflexivity|]. split; [assumption|]. split; [assumption|].
  intros z Hz Lz. apply Hin in Hz; [|assumption].
  destruct Hz as [->|Hz]; [lia|]. inversion Hf as [|? ? H1 H2]; subst. rewrite Forall_forall in H2. apply H2 in Hz. lia.
Qed.

(** Two consecutive borders. *)
Definition adj (b : list nat) (x y : nat) : Prop :=
  In x b /\ In y b /\ x < y /\ forall z, In z b -> z <= x \/ y <= z.

Lemma adj_fun b x y y' : adj b x y -> adj b x y' -> y = y'.
Proof. intros (A1 & A2 & A3 & A4) (B1 & B2 & B3 & B4). destruct (A4 y' B2), (B4 y A2); lia. Qed.

Lemma adj_ins b lo hi x u v : adj b lo hi -> lo < x < hi ->
  adj (set_ins x b) u v <-> (u = lo /\ v = x) \/ (u = x /\ v = hi) \/ (adj b u v /\ u <> lo).
Proof.
  intros (A1 & A2 & A3 & A4) Hx. unfold adj. split.
  - intros (B1 & B2 & B3 & B4). rewrite set_ins_In in B1, B2.
    assert (Hlo := B4 lo ltac:(apply set_ins_In; auto)). assert (Hhi := B4 hi ltac:(apply set_ins_In; auto)).
    assert (Hxx := B4 x ltac:(apply set_ins_In; auto)).
    destruct B1 as [->|B1].
    + right; left. split; [reflexivity|]. destruct B2 as [->|B2]; [lia|]. destruct (A4 v B2); lia.
    + destruct B2 as [->|B2].
      * left. split; [|reflexivity]. destruct (A4 u B1); lia.
      * right; right. split.
        -- split; [assumption|]. split; [assumption|]. split; [assumption|]. intros z Hz. apply B4. apply set_ins_In. auto.
        -- intros ->. destruct (A4 v B2); lia.
  - intros [(-> & ->)|[(-> & ->)|((B1 & B2 & B3 & B4) & Hne)]].
    + split; [apply set_ins_In; auto|]. split; [apply set_ins_In; auto|]. split; [lia|].
      intros z Hz. apply set_ins_In in Hz as [->|Hz]; [lia|]. destruct (A4 z Hz); lia.
    + split; [apply set_ins_In; auto|]. split; [apply set_ins_In; auto|]. split; [lia|].
      intros z Hz. apply set_ins_In in Hz as [->|Hz]; [lia|]. destruct (A4 z Hz); lia.
    + split; [apply set_ins_In; auto|]. split; [apply set_ins_In; auto|]. split; [assumption|].
      intros z Hz. apply set_ins_In in Hz as [->|Hz]; [|auto].
      destruct (A4 u B1), (A4 v B2), (B4 lo A1), (B4 hi A2); lia.
Qed.

(** Invariant of borders and large blocks. *)
Definition binv (n mn mx : nat) (b large : list nat) : Prop :=
  ss b /\ In 0 b /\ In (n + 1) b /\ (forall z, In z b -> z <= n + 1) /\
  (forall x y, adj b x y -> mn <= y - x \/ (x = 0 /\ y = n + 1)) /\
  (forall x y, adj b x y -> mx < y - x -> In x large).

Lemma binv_init n mn mx : binv n mn mx [0; n + 1] [0].
Proof.
  split; [repeat constructor; lia|]. split; [now left|]. split; [right; now left|].
  split; [intros z [<-|[<-|[]]]; lia|].
  assert (H : forall x y, adj [0; n + 1] x y -> x = 0 /\ y = n + 1).
  { intros x y ([<-|[<-|[]]] & [<-|[<-|[]]] & L & _); lia. }
  split; intros x y A; apply H in A as [-> ->]; [now right|]. intros _. now left.
Qed.

Definition pos_ok (n : nat) (idx b eqs : list nat) : Prop :=
  forall j, In j eqs -> exists k, nth_error idx j = Some k /\ k < n /\ ~ In (k + 1) b.

Definition cand_ok (mn : nat) (idx b eqs : list nat) (c : cand) : Prop :=
  In (c_j c) eqs /\ nth_error idx (c_j c) = Some (c_idx c - 1) /\ 1 <= c_idx c /\
  exists hi, adj b (c_lidx c) hi /\ c_lidx c < c_idx c < hi /\ c_left c = c_idx c - c_lidx c /\
    c_right c = hi - c_idx c /\ mn <= c_left c /\ mn <= c_right c.

Lemma adj_around n mn mx b large x : binv n mn mx b large -> 1 <= x <= n -> ~ In x b ->
  exists lo hi, set_below b x = Ok lo /\ set_above b x = Ok hi /\ adj b lo hi /\ lo < x < hi.
Proof.
  intros (S & I0 & In1 & Hle & _) Hx Hn.
  destruct (set_below_ok b x S) as (lo & E1 & B1 & L1 & M1); [exists 0; split; [assumption|lia]|].
  destruct (set_above_ok b x S) as (hi & E2 & B2 & L2 & M2); [exists (n + 1); split; [assumption|lia]|].
  exists lo, hi. split; [assumption|]. split; [assumption|]. split; [|lia].
  split; [assumption|]. split; [assumption|]. split; [lia|].
  intros z Hz. destruct (Nat.lt_trichotomy z x) as [L|[->|L]]; [left; auto|contradiction|right; auto].
Qed.

Lemma pick_spec n mn mx idx b large eqs : binv n mn mx b large -> pos_ok n idx b eqs ->
  exists lm best, pick mn idx b eqs = Ok (lm, best) /\
    match best with
    | Some c => cand_ok mn idx b eqs c
    | None => forall j k lo hi, In j eqs -> nth_error idx j = Some k -> adj b lo hi -> lo < k + 1 < hi ->
                k + 1 - lo < mn \/ hi - (k + 1) < mn
    end.
Proof.
  intros HI HP. unfold pick.
  edestruct (foldM_inv (fun j '(lm, best) =>
    do k <- vget idx j;
    let x := k + 1 in
    do lx <- set_below b x;
    do ux <- set_above b x;
    let left := x - lx in
    let right := ux - x in
    if (left <? mn) || (right <? mn) then Ok (lm, best)
    else if lm <? Nat.min left right then Ok (Nat.min left right, Some (mkCand j x lx left right))
    else Ok (lm, best))
    (fun m '(lm, best) => match best with
      | Some c => cand_ok mn idx b eqs c
      | None => lm = 0 /\ forall a j k lo hi, a < m -> nth_error eqs a = Some j -> nth_error idx j = Some k -> adj b lo hi -> lo < k + 1 < hi ->
                  k + 1 - lo < mn \/ hi - (k + 1) < mn
      end) eqs (0, None)) as ((lm & best) & E & Hb).
  - split; [reflexivity|]. intros; lia.
  - intros m j (lm, best) Hj Hinv.
    destruct (HP j) as (k & Ek & Lk & Nk); [eapply nth_error_In; eassumption|].
    destruct (adj_around n mn mx b large (k + 1) HI) as (lo & hi & E1 & E2 & A & L); [lia|assumption|].
    unfold vget. rewrite Ek. cbn. rewrite E1. cbn. rewrite E2. cbn.
    assert (Huniq : forall lo' hi', adj b lo' hi' -> lo' < k + 1 < hi' -> lo' = lo /\ hi' = hi).
    { intros lo' hi' (B1 & B2 & B3 & B4) L'. destruct A as (A1 & A2 & A3 & A4).
      destruct (A4 lo' B1), (A4 hi' B2), (B4 lo A1), (B4 hi A2); lia. }
    destruct ((k + 1 - lo <? mn) || (hi - (k + 1) <? mn)) eqn:Em.
    + eexists. split; [reflexivity|]. destruct best as [c|]; [assumption|]. destruct Hinv as (-> & Hi). split; [reflexivity|].
      intros a j' k' lo' hi' La Ha Ek' A' L'. destruct (Nat.eq_dec a m) as [->|].
      * rewrite Hj in Ha. injection Ha as <-. rewrite Ek in Ek'. injection Ek' as <-.
        apply Huniq in A'; [|assumption]. destruct A' as [-> ->]. apply orb_prop in Em as [Em|Em]; apply Nat.ltb_lt in Em; auto.
      * eapply Hi; try eassumption. lia.
    + apply orb_false_elim in Em as [M1 M2]. apply Nat.ltb_ge in M1, M2.
      destruct (Nat.ltb_spec lm (Nat.min (k + 1 - lo) (hi - (k + 1)))) as [Lm|Lm].
      * eexists. split; [reflexivity|]. cbn. split; [eapply nth_error_In; eassumption|].
        cbn [c_idx c_j c_lidx c_left c_right]. split; [replace (k + 1 - 1) with k by lia; assumption|]. split; [lia|].
        exists hi. split; [exact A|]. split; [exact L|]. repeat split; assumption.
      * eexists. split; [reflexivity|]. destruct best as [c|]; [assumption|]. destruct Hinv as (-> & _). lia.
  - exists lm, best. split; [exact E|]. destruct best as [c|]; [assumption|].
    intros j k lo hi Hj. apply In_nth_error in Hj as (a & Ha). intros. eapply (proj2 Hb); try eassumption.
    apply nth_error_Some. congruence.
Qed.

Lemma step_binv n mn mx idx b large eqs c : binv n mn mx b large -> cand_ok mn idx b eqs c ->
  binv n mn mx (set_ins (c_idx c) b) (new_large mx c large).
Proof.
  intros (S & I0 & I1 & Hle & Hmn & Hmx) (_ & _ & _ & hi & A & L & El & Er & M1 & M2).
  pose proof A as (A1 & A2 & A3 & A4).
  split; [now apply set_ins_ss|]. split; [apply set_ins_In; auto|]. split; [apply set_ins_In; auto|].
  split. { intros z Hz. apply set_ins_In in Hz as [->|Hz]; [|auto]. pose proof (Hle hi A2). lia. }
  split.
  - intros x y Hxy. apply (adj_ins b (c_lidx c) hi (c_idx c) x y A L) in Hxy.
    destruct Hxy as [(-> & ->)|[(-> & ->)|(Hxy & _)]]; [left; lia|left; lia|auto].
  - intros x y Hxy Hbig. apply (adj_ins b (c_lidx c) hi (c_idx c) x y A L) in Hxy. unfold new_large.
    destruct Hxy as [(-> & ->)|[(-> & ->)|(Hxy & Hne)]].
    + assert (Hin : In (c_lidx c) large) by (apply Hmx with hi; [assumption|lia]).
      rewrite (proj2 (set_mem_In _ _) Hin). destruct (Nat.leb_spec (c_left c) mx); [lia|].
      destruct (mx <? c_right c); [apply set_ins_In; auto|assumption].
    + assert (Hin : In (c_lidx c) large) by (apply Hmx with hi; [assumption|lia]).
      rewrite (proj2 (set_mem_In _ _) Hin). destruct (Nat.ltb_spec mx (c_right c)); [|lia]. apply set_ins_In; auto.
    + specialize (Hmx x y Hxy Hbig). destruct (set_mem (c_lidx c) large); [|assumption].
      assert (H1 : In x (if c_left c <=? mx then set_del (c_lidx c) large else large)).
      { destruct (c_left c <=? mx); [|assumption]. apply set_del_In. auto. }
      destruct (mx <? c_right c); [apply set_ins_In; auto|assumption].
Qed.

Lemma step_pos n mn idx b eqs c : NoDup idx -> pos_ok n idx b eqs -> cand_ok mn idx b eqs c ->
  pos_ok n idx (set_ins (c_idx c) b) (set_del (c_j c) eqs).
Proof.
  intros Hnd HP (Hj & Ej & H1 & _) j Hj'. apply set_del_In in Hj' as [Hj' Hne].
  destruct (HP j Hj') as (k & Ek & Lk & Nk). exists k. split; [assumption|]. split; [assumption|].
  intros Hin. apply set_ins_In in Hin as [E|Hin]; [|contradiction].
  apply Hne. rewrite NoDup_nth_error in Hnd. apply Hnd; [apply nth_error_Some; congruence|].
  rewrite Ek, Ej. f_equal. lia.
Qed.

Lemma filter_length_le {A} (p : A -> bool) l : length (filter p l) <= length l.
Proof. induction l as [|x t IH]; cbn; [lia|]. destruct (p x); cbn; lia. Qed.
Lemma set_del_length x l : In x l -> length (set_del x l) < length l.
Proof.
  unfold set_del. induction l as [|y t IH]; cbn; [intuition|]. intros [->|H].
  - rewrite Nat.eqb_refl. cbn. pose proof (filter_length_le (fun z => negb (z =? x)) t). lia.
  - destruct (negb (y =? x)); cbn; [specialize (IH H); lia|]. pose proof (filter_length_le (fun z => negb (z =? x)) t). lia.
Qed.

(** Outcome of one group. *)
Lemma split_group_spec n mn mx idx : NoDup idx -> forall fuel eqs b large,
  binv n mn mx b large -> pos_ok n idx b eqs -> length eqs <= fuel ->
  match split_group fuel mn mx idx eqs b large with
  | Ok (b', large') =>
      binv n mn mx b' large' /\ (forall z, In z b -> In z b') /\
      (forall z, In z b' -> In z b \/ exists j k, In j eqs /\ nth_error idx j = Some k /\ z = k + 1) /\
      (large' = [] \/ forall j k, In j eqs -> nth_error idx j = Some k -> In (k + 1) b') /\
      (eqs = [] -> b' = b /\ large' = large)
  | UB UninitRead => 2 <= mn
  | _ => False
  end.
Proof.
  intros Hnd. induction fuel as [|f IH]; intros eqs b large HI HP Hf.
  - destruct eqs as [|j t]; [|cbn in Hf; lia]. cbn.
    split; [assumption|]. split; [auto|]. split; [auto|]. split; [right; intros ? ? []|auto].
  - destruct eqs as [|j0 t].
    { cbn. split; [assumption|]. split; [auto|]. split; [auto|]. split; [right; intros ? ? []|auto]. }
    cbn [split_group]. set (eqs := j0 :: t) in *.
    destruct (pick_spec n mn mx idx b large eqs HI HP) as (lm & best & E & Hb). rewrite E. cbn [bind snd].
    destruct best as [c|].
    2:{ destruct (HP j0) as (k & Ek & Lk & Nk); [now left|].
        destruct (adj_around n mn mx b large (k + 1) HI) as (lo & hi & _ & _ & A & L); [lia|assumption|].
        specialize (Hb j0 k lo hi ltac:(now left) Ek A L). lia. }
    pose proof (step_binv n mn mx idx b large eqs c HI Hb) as HI'.
    pose proof (step_pos n mn idx b eqs c Hnd HP Hb) as HP'.
    pose proof Hb as (Hj & Ej & H1 & _).
    assert (Hlen : length (set_del (c_j c) eqs) <= f) by (pose proof (set_del_length _ _ Hj); lia).
    assert (Hsub : forall z, In z (set_ins (c_idx c) b) -> In z b \/ exists j k, In j eqs /\ nth_error idx j = Some k /\ z = k + 1).
    { intros z Hz. apply set_ins_In in Hz as [->|Hz]; [|auto]. right. exists (c_j c), (c_idx c - 1).
      split; [assumption|]. split; [assumption|]. lia. }
    destruct (new_large mx c large) as [|x l] eqn:El.
    + split; [assumption|]. split; [intros; apply set_ins_In; auto|]. split; [assumption|]. split; [now left|]. discriminate.
    + specialize (IH (set_del (c_j c) eqs) (set_ins (c_idx c) b) (x :: l) HI' HP' Hlen).
      destruct (split_group f mn mx idx (set_del (c_j c) eqs) (set_ins (c_idx c) b) (x :: l)) as [[b' large']| | |u|]; try exact IH.
      destruct IH as (J1 & J2 & J3 & J4 & _). split; [assumption|].
      split; [intros z Hz; apply J2; apply set_ins_In; auto|].
      split. { intros z Hz. apply J3 in Hz as [Hz|(j & k & Hj' & Ek & ->)]; [auto|]. right. exists j, k.
               apply set_del_In in Hj' as [Hj' _]. auto. }
      split; [|discriminate]. destruct J4 as [->|J4]; [now left|right].
      intros j k Hj' Ek. destruct (Nat.eq_dec j (c_j c)) as [->|Hne].
      * rewrite Ej in Ek. injection Ek as <-. apply J2. apply set_ins_In. left. lia.
      * apply (J4 j); [|assumption]. apply set_del_In. auto.
Qed.

Section Place.
Context {T : Type} (bn : bnum T).

Lemma take_equal_spec (detect : list T) idx v i m :
  (forall j, j < i + m -> exists k w, nth_error idx j = Some k /\ nth_error detect k = Some w) ->
  exists q, q <= m /\ take_equal bn detect idx v (seq i m) = Ok (seq i q) /\
    forall j k w, i <= j < i + q -> nth_error idx j = Some k -> nth_error detect k = Some w -> b_eq bn v w = true.
Proof.
  revert i. induction m as [|m IH]; intros i H; cbn.
  - exists 0. split; [lia|]. split; [reflexivity|]. intros; lia.
  - destruct (H i ltac:(lia)) as (k & w & Ek & Ew). unfold vget. rewrite Ek. cbn. rewrite Ew. cbn.
    destruct (b_eq bn v w) eqn:Eq.
    + destruct (IH (S i)) as (q & Lq & E & Hq). { intros j Hj. apply H. lia. }
      rewrite E. cbn. exists (S q). split; [lia|]. split; [reflexivity|].
      intros j k' w' Lj Ek' Ew'. destruct (Nat.eq_dec j i) as [->|]; [congruence|]. apply (Hq j k' w'); auto. lia.
    + exists 0. split; [lia|]. split; [reflexivity|]. intros; lia.
Qed.

(** Positions before [i] in the sorted order are borders and no others are. *)
Definition done_upto (n i : nat) (idx b : list nat) : Prop :=
  (forall j k, j < i -> nth_error idx j = Some k -> In (k + 1) b) /\
  (forall z, In z b -> z = 0 \/ z = n + 1 \/ exists j k, j < i /\ nth_error idx j = Some k /\ z = k + 1).

(** Final borders: the positions before some [i0] of the sorted order are borders, only positions
    before [i1] are, and the values between belong to one group of equal values. *)
Definition final (n : nat) (detect : list T) (idx b : list nat) : Prop :=
  exists i0 i1, i0 <= i1 /\
  (forall j k, j < i0 -> nth_error idx j = Some k -> In (k + 1) b) /\
  (forall z, In z b -> z = 0 \/ z = n + 1 \/ exists j k, j < i1 /\ nth_error idx j = Some k /\ z = k + 1) /\
  forall j k x j' k' x', i0 <= j < i1 -> i0 <= j' < i1 ->
    nth_error idx j = Some k -> nth_error detect k = Some x ->
    nth_error idx j' = Some k' -> nth_error detect k' = Some x' ->
    exists v, (x = v \/ b_eq bn v x = true) /\ (x' = v \/ b_eq bn v x' = true).

Lemma place_spec mn mx (detect : list T) idx :
  Permutation idx (seq 0 (length detect)) -> forall fuel i b large,
  let n := length detect in
  i <= n -> n - i <= fuel -> binv n mn mx b large -> done_upto n i idx b ->
  match place bn fuel mn mx detect idx i b large with
  | Ok b' => exists large', binv n mn mx b' large' /\ final n detect idx b' /\
      (large' = [] \/ forall j k, nth_error idx j = Some k -> In (k + 1) b')
  | UB UninitRead => 2 <= mn
  | _ => False
  end.
Proof.
  intros Hperm. set (n := length detect).
  assert (Hlen : length idx = n) by (rewrite (Permutation_length Hperm), seq_length; reflexivity).
  assert (Hnd : NoDup idx) by (eapply Permutation_NoDup; [symmetry; exact Hperm|apply seq_NoDup]).
  assert (Hlook : forall j, j < n -> exists k w, nth_error idx j = Some k /\ nth_error detect k = Some w /\ k < n).
  { intros j Hj. destruct (nth_error idx j) as [k|] eqn:E; [|apply nth_error_None in E; lia].
    assert (Hk : In k (seq 0 n)) by (eapply Permutation_in; [exact Hperm|eapply nth_error_In; eassumption]).
    apply in_seq in Hk. destruct (nth_error detect k) as [w|] eqn:E2; [|apply nth_error_None in E2; unfold n in *; lia].
    exists k, w. repeat split; auto; lia. }
  induction fuel as [|f IH]; cbn zeta; intros i b large Hi Hf HI HD; cbn [place]; fold n;
    destruct (Nat.eqb_spec i n) as [->|Hin]; try lia.
  1,2: exists large; split; [assumption|]; split;
    [exists n, n; split; [lia|]; split; [apply HD|]; split; [apply HD|]; intros; lia|
     right; intros j k Ek; apply (proj1 HD j); [|assumption]; rewrite <- Hlen; apply nth_error_Some; congruence].
  destruct (Hlook i ltac:(lia)) as (k0 & v & Ek0 & Ev & Lk0).
  unfold vget at 1. rewrite Ek0. cbn [bind]. unfold vget at 1. rewrite Ev. cbn [bind].
  destruct (take_equal_spec detect idx v (i + 1) (n - (i + 1))) as (q & Lq & Eq & Hq).
  { intros j Hj. destruct (Hlook j ltac:(lia)) as (k & w & ? & ? & _). eauto. }
  rewrite Eq. cbn [bind].
  replace (i :: seq (i + 1) q) with (seq i (S q)) by (cbn; f_equal; f_equal; lia).
  assert (HP : pos_ok n idx b (seq i (S q))).
  { intros j Hj. apply in_seq in Hj. destruct (Hlook j ltac:(lia)) as (k & w & Ek & _ & Lk).
    exists k. split; [assumption|]. split; [assumption|]. intros Hb. apply HD in Hb as [Hb|[Hb|(j' & k' & Lj & Ek' & Hb)]]; [lia|lia|].
    assert (k' = k) by lia. subst k'. rewrite NoDup_nth_error in Hnd. assert (j = j'); [|lia]. apply Hnd; [lia|congruence]. }
  pose proof (split_group_spec n mn mx idx Hnd (length (seq i (S q))) (seq i (S q)) b large HI HP (le_n _)) as HS.
  rewrite seq_length in HS. rewrite seq_length.
  destruct (split_group (S q) mn mx idx (seq i (S q)) b large) as [[b' large']| | |u|]; cbn [bind fst snd]; try exact HS.
  destruct HS as (J1 & J2 & J3 & J4 & _).
  assert (Hgrp : forall j k x, i <= j < i + S q -> nth_error idx j = Some k -> nth_error detect k = Some x -> x = v \/ b_eq bn v x = true).
  { intros j k x Lj Ek Ex. destruct (Nat.eq_dec j i) as [->|]; [left; congruence|right]. apply (Hq j k x); auto. lia. }
  assert (Hup : forall z, In z b' -> z = 0 \/ z = n + 1 \/ exists j k, j < i + S q /\ nth_error idx j = Some k /\ z = k + 1).
  { intros z Hz. apply J3 in Hz as [Hz|(j & k & Hj & Ek & ->)].
    - apply HD in Hz as [|[|(j & k & Lj & Ek & ->)]]; auto. right; right. exists j, k. split; [lia|auto].
    - apply in_seq in Hj. right; right. exists j, k. split; [lia|auto]. }
  destruct large' as [|x l].
  - exists []. split; [assumption|]. split; [|now left].
    exists i, (i + S q). split; [lia|]. split; [intros j k Lj Ek; apply J2; now apply (proj1 HD j)|]. split; [assumption|].
    intros j k x j' k' x' Lj Lj' Ek Ex Ek' Ex'. exists v. split; [apply (Hgrp j k)|apply (Hgrp j' k')]; auto.
  - destruct J4 as [J4|J4]; [discriminate|]. cbn zeta in IH. apply IH; auto; try lia.
    split; [|assumption]. intros j k Lj Ek. destruct (Nat.lt_ge_cases j i).
    + apply J2. now apply (proj1 HD j).
    + apply (J4 j); [|assumption]. apply in_seq. lia.
Qed.

(** ** From borders to sizes *)
Lemma gaps_adj b s : ss b -> In s (gaps b) -> exists x y, adj b x y /\ s = y - x.
Proof.
  induction b as [|x [|y t] IH]; intros Hs Hin; cbn in Hin; try contradiction.
  inversion Hs as [|? ? H1 H2]; subst. rewrite Forall_forall in H2. destruct Hin as [<-|Hin].
  - exists x, y. split; [|reflexivity]. split; [now left|]. split; [right; now left|]. split; [apply H2; now left|].
    intros z [<-|[<-|Hz]]; [left; lia|right; lia|right]. inversion H1 as [|? ? _ H3]; subst. rewrite Forall_forall in H3.
    apply H3 in Hz. lia.
  - destruct (IH H1 Hin) as (u & v & (A1 & A2 & A3 & A4) & ->). exists u, v. split; [|reflexivity].
    split; [now right|]. split; [now right|]. split; [assumption|].
    intros z [<-|Hz]; [|auto]. left. apply H2 in A1. lia.
Qed.

Lemma ss_last_max b d : ss b -> forall x, In x b -> x <= last b d.
Proof.
  induction b as [|x [|y t] IH]; intros Hs z Hz; [destruct Hz| |].
  - destruct Hz as [<-|[]]; cbn; lia.
  - inversion Hs as [|? ? H1 H2]; subst. rewrite Forall_forall in H2. change (last (x :: y :: t) d) with (last (y :: t) d).
    destruct Hz as [<-|Hz]; [|now apply IH]. pose proof (H2 y ltac:(now left)). pose proof (IH H1 y ltac:(now left)). lia.
Qed.
Lemma ss_hd_min b d : ss b -> forall x, In x b -> hd d b <= x.
Proof.
  destruct b as [|y t]; intros Hs z Hz; [destruct Hz|]. cbn. destruct Hz as [<-|Hz]; [lia|].
  inversion Hs as [|? ? H1 H2]; subst. rewrite Forall_forall in H2. apply H2 in Hz. lia.
Qed.

(** Prefix sums of the gaps are the borders. *)
Lemma gaps_prefix b x k y : ss (x :: b) -> nth_error (x :: b) k = Some y ->
  x + list_sum (firstn k (gaps (x :: b))) = y.
Proof.
  revert x k. induction b as [|z t IH]; intros x [|k] Hs Hk; cbn in Hk.
  - injection Hk as <-. cbn. lia.
  - destruct k; discriminate.
  - injection Hk as <-. cbn. lia.
  - change (gaps (x :: z :: t)) with ((z - x) :: gaps (z :: t)). cbn [firstn list_sum fold_right].
    inversion Hs as [|? ? H1 H2]; subst. rewrite Forall_forall in H2. pose proof (H2 z ltac:(now left)).
    specialize (IH z k H1 Hk). change (fold_right Nat.add 0) with list_sum. lia.
Qed.
Lemma gaps_length b : length (gaps b) = length b - 1.
Proof.
  induction b as [|x [|y t] IH]; auto. change (gaps (x :: y :: t)) with ((y - x) :: gaps (y :: t)). cbn [length] in *. lia.
Qed.
Lemma firstn_all_ge {A} (l : list A) k : length l <= k -> firstn k l = l.
Proof. apply firstn_all2. Qed.

Lemma last_nth (t : list nat) x d : nth_error (x :: t) (length t) = Some (last (x :: t) d).
Proof. revert x. induction t as [|y t IH]; intros x; [reflexivity|]. apply IH. Qed.

Lemma gaps_tiles n mn mx b large : binv n mn mx b large -> tiles (gaps b) (n + 1).
Proof.
  intros (S & I0 & I1 & Hle & _). split.
  - destruct b as [|x t]; [destruct I0|].
    assert (x = 0). { pose proof (ss_hd_min (x :: t) 0 S 0 I0) as Hm. cbn [hd] in Hm. lia. } subst x.
    assert (Hl : last (0 :: t) 0 = n + 1).
    { pose proof (ss_last_max (0 :: t) 0 S (n + 1) I1). assert (In (last (0 :: t) 0) (0 :: t)).
      { eapply nth_error_In. apply last_nth. }
      apply Hle in H0. lia. }
    assert (Hk : nth_error (0 :: t) (length t) = Some (n + 1)).
    { rewrite <- Hl. apply last_nth. }
    pose proof (gaps_prefix t 0 (length t) (n + 1) S Hk) as G. cbn [Nat.add] in G.
    rewrite firstn_all_ge in G; [exact G|]. rewrite gaps_length. cbn. lia.
  - apply Forall_forall. intros s Hs. apply (gaps_adj b s S) in Hs as (x & y & (_ & _ & L & _) & ->). lia.
Qed.

Lemma cut_at_border n mn mx b large p : binv n mn mx b large -> p < n -> (cut_at (gaps b) p <-> In (p + 1) b).
Proof.
  intros (S & I0 & I1 & Hle & _) Hp. destruct b as [|x t]; [destruct I0|].
  assert (x = 0). { pose proof (ss_hd_min (x :: t) 0 S 0 I0) as Hm. cbn [hd] in Hm. lia. } subst x.
  unfold cut_at. rewrite gaps_length. replace (length (0 :: t) - 1) with (length t) by (cbn [length]; lia). split.
  - intros (k & L1 & L2 & E). destruct (nth_error (0 :: t) k) as [y|] eqn:Ey.
    + pose proof (gaps_prefix t 0 k y S Ey) as G. cbn [Nat.add] in G. rewrite E in G. subst y. eapply nth_error_In; eassumption.
    + apply nth_error_None in Ey. cbn in Ey. lia.
  - intros Hin. apply In_nth_error in Hin as (k & Ek). exists k.
    pose proof (gaps_prefix t 0 k _ S Ek) as G. cbn [Nat.add] in G.
    assert (k < length (0 :: t)) by (apply nth_error_Some; congruence). cbn in H.
    split; [|split; [|assumption]].
    + assert (k <> length t); [|lia]. intros ->. apply In_nth_error in I1 as (m & Em).
      pose proof (ss_last_max (0 :: t) 0 S (n + 1) ltac:(eapply nth_error_In; eassumption)).
      assert (Hk : nth_error (0 :: t) (length t) = Some (last (0 :: t) 0)).
      { apply last_nth. }
      assert (last (0 :: t) 0 = p + 1) by congruence. lia.
    + destruct k; [|lia]. cbn in Ek. injection Ek as Ek. lia.
Qed.

(** ** The size choice as a whole *)
Lemma done_init n idx : done_upto n 0 idx [0; n + 1].
Proof. split; [intros; lia|]. intros z [<-|[<-|[]]]; auto. Qed.

Lemma get_block_size_spec mn mx (detect : list T) idx :
  Permutation idx (seq 0 (length detect)) ->
  let n := length detect in
  match get_block_size bn mn mx detect idx with
  | Ok sizes => exists b large, sizes = gaps b /\ binv n mn mx b large /\ final n detect idx b /\
      (large = [] \/ forall j k, nth_error idx j = Some k -> In (k + 1) b)
  | UB UninitRead => 2 <= mn
  | _ => False
  end.
Proof.
  intros Hperm n. unfold get_block_size.
  pose proof (place_spec mn mx detect idx Hperm n 0 [0; n + 1] [0] (Nat.le_0_l _) ltac:(fold n; lia) (binv_init n mn mx) (done_init n idx)) as H.
  fold n. destruct (place bn n mn mx detect idx 0 [0; n + 1] [0]) as [b| | |u|]; cbn [bind]; try exact H.
  destruct H as (large & H1 & H2 & H3). exists b, large. auto.
Qed.
End Place.
