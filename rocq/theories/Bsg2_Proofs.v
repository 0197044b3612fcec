(** Proofs about the block-size generator: uniform profiles and the detection
    profile. *)
From Coq Require Import Sorting.Sorted.
From Verif Require Import Base BaseLemmas Dense_Model Dense_Spec Dense_Proofs Bsg_Model Bsg_Spec Bsg_Proofs.

(** ** Uniform profiles: every large block can be halved. *)
Definition linv (mn : nat) (b large : list nat) : Prop :=
  forall x, In x large -> exists y, adj b x y /\ 2 * mn <= y - x.
Definition cover (n : nat) (idx b eqs : list nat) : Prop :=
  forall p, 1 <= p <= n -> In p b \/ exists j, In j eqs /\ nth_error idx j = Some (p - 1).

Lemma step_linv mn mx idx b large eqs c : 2 * mn <= mx -> linv mn b large -> cand_ok mn idx b eqs c ->
  linv mn (set_ins (c_idx c) b) (new_large mx c large).
Proof.
  intros Hm HL (_ & _ & _ & hi & A & L & El & Er & _) z Hz. unfold new_large in Hz.
  assert (Hother : forall w, In w large -> w <> c_lidx c -> exists y, adj (set_ins (c_idx c) b) w y /\ 2 * mn <= y - w).
  { intros w Hw Hne. destruct (HL w Hw) as (y & Ay & Ly). exists y. split; [|assumption].
    apply (adj_ins b (c_lidx c) hi (c_idx c) w y A L). auto. }
  destruct (set_mem (c_lidx c) large) eqn:Em.
  2:{ apply Hother; [assumption|]. intros ->. apply set_mem_nIn in Em. contradiction. }
  assert (Hkeep : In z (if c_left c <=? mx then set_del (c_lidx c) large else large) ->
    exists y, adj (set_ins (c_idx c) b) z y /\ 2 * mn <= y - z).
  { destruct (Nat.leb_spec (c_left c) mx) as [Hl|Hl]; intros H.
    - apply set_del_In in H as [H1 H2]. now apply Hother.
    - destruct (Nat.eq_dec z (c_lidx c)) as [->|Hne]; [|now apply Hother].
      exists (c_idx c). split; [apply (adj_ins b (c_lidx c) hi (c_idx c) _ _ A L); auto|lia]. }
  destruct (Nat.ltb_spec mx (c_right c)) as [Hr|Hr]; [|auto].
  apply set_ins_In in Hz as [->|Hz]; [|auto].
  exists hi. split; [apply (adj_ins b (c_lidx c) hi (c_idx c) _ _ A L); auto|lia].
Qed.

Lemma split_group_uniform n mn mx idx : NoDup idx -> 2 * mn <= mx -> forall fuel eqs b large,
  binv n mn mx b large -> pos_ok n idx b eqs -> cover n idx b eqs -> linv mn b large -> large <> [] -> length eqs <= fuel ->
  forall u, split_group fuel mn mx idx eqs b large <> UB u.
Proof.
  intros Hnd Hm. induction fuel as [|f IH]; intros eqs b large HI HP HC HL Hne Hf u.
  - destruct eqs; [cbn; discriminate|cbn in Hf; lia].
  - destruct eqs as [|j0 t]; [cbn; discriminate|]. cbn [split_group]. set (eqs := j0 :: t) in *.
    destruct (pick_spec n mn mx idx b large eqs HI HP) as (lm & best & E & Hb). rewrite E. cbn [bind snd].
    destruct best as [c|].
    + destruct (new_large mx c large) as [|x l] eqn:El; [discriminate|].
      pose proof Hb as (Hj & Ej & H1 & _).
      apply IH.
      * rewrite <- El. eapply step_binv; eassumption.
      * eapply step_pos; eassumption.
      * intros p Hp. destruct (HC p Hp) as [Hin|(j & Hj' & Ej')]; [left; apply set_ins_In; auto|].
        destruct (Nat.eq_dec j (c_j c)) as [->|]; [|right; exists j; split; [apply set_del_In; auto|assumption]].
        left. apply set_ins_In. left. rewrite Ej in Ej'. injection Ej'. lia.
      * rewrite <- El. eapply step_linv; eassumption.
      * discriminate.
      * pose proof (set_del_length _ _ Hj). lia.
    + exfalso. destruct large as [|x l]; [contradiction|].
      destruct (HL x ltac:(now left)) as (y & A & Ly). pose proof A as (A1 & A2 & A3 & A4).
      destruct HI as (S & I0 & I1 & Hle & _). pose proof (Hle y A2).
      destruct (le_lt_dec mn 0) as [Hz|Hz].
      * destruct (HP j0 ltac:(now left)) as (k & Ek & Lk & Nk).
        destruct (set_below_ok b (k + 1) S) as (lo & _ & B1 & L1 & M1); [exists 0; split; [assumption|lia]|].
        destruct (set_above_ok b (k + 1) S) as (hi & _ & B2 & L2 & M2); [exists (n + 1); split; [assumption|lia]|].
        assert (Alh : adj b lo hi).
        { split; [assumption|]. split; [assumption|]. split; [lia|]. intros z Hz'.
          destruct (Nat.lt_trichotomy z (k + 1)) as [L|[->|L]]; [left; auto|contradiction|right; auto]. }
        specialize (Hb j0 k lo hi ltac:(now left) Ek Alh ltac:(lia)). lia.
      * destruct (HC (x + mn) ltac:(lia)) as [Hin|(j & Hj & Ej)].
        -- destruct (A4 _ Hin); lia.
        -- specialize (Hb j (x + mn - 1) x y Hj Ej A ltac:(lia)). lia.
Qed.

Section Uniform.
Context {T : Type} (bn : bnum T).

Lemma take_equal_all (detect : list T) idx v i m :
  (forall j, j < i + m -> exists k w, nth_error idx j = Some k /\ nth_error detect k = Some w) ->
  (forall w, In w detect -> b_eq bn v w = true) ->
  take_equal bn detect idx v (seq i m) = Ok (seq i m).
Proof.
  revert i. induction m as [|m IH]; intros i H Hv; cbn; [reflexivity|].
  destruct (H i ltac:(lia)) as (k & w & Ek & Ew). unfold vget. rewrite Ek. cbn. rewrite Ew. cbn.
  rewrite Hv by (eapply nth_error_In; eassumption). rewrite IH; auto. intros j Hj. apply H. lia.
Qed.

Lemma uniform_no_ub mn mx (detect : list T) idx :
  Permutation idx (seq 0 (length detect)) -> detect <> [] -> 2 * mn <= mx -> 2 * mn <= length detect + 1 ->
  (forall v w, In v detect -> In w detect -> b_eq bn v w = true) ->
  forall u, get_block_size bn mn mx detect idx <> UB u.
Proof.
  intros Hperm Hne Hm Hn Hu u. unfold get_block_size. set (n := length detect) in *.
  assert (Hpos : 1 <= n) by (unfold n; destruct detect; [contradiction|cbn; lia]).
  assert (Hlen : length idx = n) by (rewrite (Permutation_length Hperm), seq_length; reflexivity).
  assert (Hnd : NoDup idx) by (eapply Permutation_NoDup; [symmetry; exact Hperm|apply seq_NoDup]).
  assert (Hlook : forall j, j < n -> exists k w, nth_error idx j = Some k /\ nth_error detect k = Some w /\ k < n).
  { intros j Hj. destruct (nth_error idx j) as [k|] eqn:E; [|apply nth_error_None in E; lia].
    assert (Hk : In k (seq 0 n)) by (eapply Permutation_in; [exact Hperm|eapply nth_error_In; eassumption]).
    apply in_seq in Hk. destruct (nth_error detect k) as [w|] eqn:E2; [|apply nth_error_None in E2; unfold n in *; lia].
    exists k, w. repeat split; auto; lia. }
  assert (HP : pos_ok n idx [0; n + 1] (seq 0 n)).
  { intros j Hj. apply in_seq in Hj. destruct (Hlook j ltac:(lia)) as (k & w & Ek & _ & Lk).
    exists k. split; [assumption|]. split; [assumption|]. intros [H|[H|[]]]; lia. }
  assert (HS := split_group_uniform n mn mx idx Hnd Hm n (seq 0 n) [0; n + 1] [0] (binv_init n mn mx) HP).
  assert (H1 : place bn n mn mx detect idx 0 [0; n + 1] [0] <> UB u).
  { destruct n as [|m] eqn:En; [lia|]. cbn [place]. fold n. rewrite En. cbn [Nat.eqb].
    destruct (Hlook 0 ltac:(lia)) as (k0 & v & Ek0 & Ev & _).
    unfold vget at 1. rewrite Ek0. cbn [bind]. unfold vget at 1. rewrite Ev. cbn [bind].
    rewrite take_equal_all.
    2:{ intros j Hj. destruct (Hlook j ltac:(lia)) as (k & w & ? & ? & _). eauto. }
    2:{ intros w Hw. apply Hu; [eapply nth_error_In; eassumption|assumption]. }
    cbn [bind]. replace (0 :: seq (0 + 1) (S m - (0 + 1))) with (seq 0 (S m)) by (cbn; f_equal; f_equal; lia).
    rewrite seq_length.
    assert (HS' : forall u, split_group (S m) mn mx idx (seq 0 (S m)) [0; S m + 1] [0] <> UB u).
    { intros u'. apply HS.
      - intros p Hp. right.
        assert (Hin : In (p - 1) idx) by (eapply Permutation_in; [symmetry; exact Hperm|apply in_seq; fold n; lia]).
        apply In_nth_error in Hin as (j & Ej). exists j. split; [|assumption]. apply in_seq.
        assert (j < length idx) by (apply nth_error_Some; congruence). lia.
      - intros x [<-|[]]. exists (S m + 1). split; [|lia]. split; [now left|]. split; [right; now left|]. split; [lia|].
        intros z [<-|[<-|[]]]; lia.
      - discriminate.
      - now rewrite seq_length. }
    destruct (split_group (S m) mn mx idx (seq 0 (S m)) [0; S m + 1] [0]) as [[b' large']| | |u'|] eqn:Es; cbn [bind fst snd]; try discriminate.
    2:{ exfalso. eapply HS'. reflexivity. }
    destruct large'; [discriminate|].
    destruct m; cbn [place]; fold n; rewrite En, Nat.eqb_refl; discriminate. }
  destruct (place bn n mn mx detect idx 0 [0; n + 1] [0]); cbn; try discriminate. intros E. injection E as ->. now apply H1.
Qed.

(** A dimension shorter than twice the minimum can never be cut. *)
Lemma short_ub mn mx (detect : list T) idx :
  Permutation idx (seq 0 (length detect)) -> detect <> [] -> length detect + 1 < 2 * mn ->
  get_block_size bn mn mx detect idx = UB UninitRead.
Proof.
  intros Hperm Hne Hs. pose proof (get_block_size_spec bn mn mx detect idx Hperm) as H. cbn zeta in H.
  set (n := length detect) in *. assert (Hpos : 1 <= n) by (unfold n; destruct detect; [contradiction|cbn; lia]).
  destruct (get_block_size bn mn mx detect idx) as [sizes| | |[]|] eqn:E; try contradiction; auto. exfalso.
  revert E. unfold get_block_size. fold n.
  assert (Hlen : length idx = n) by (rewrite (Permutation_length Hperm), seq_length; reflexivity).
  assert (Hlook : forall j, j < n -> exists k w, nth_error idx j = Some k /\ nth_error detect k = Some w /\ k < n).
  { intros j Hj. destruct (nth_error idx j) as [k|] eqn:E; [|apply nth_error_None in E; lia].
    assert (Hk : In k (seq 0 n)) by (eapply Permutation_in; [exact Hperm|eapply nth_error_In; eassumption]).
    apply in_seq in Hk. destruct (nth_error detect k) as [w|] eqn:E2; [|apply nth_error_None in E2; unfold n in *; lia].
    exists k, w. repeat split; auto; lia. }
  destruct n as [|m] eqn:En; [lia|]. cbn [place]. fold n. rewrite En. cbn [Nat.eqb].
  destruct (Hlook 0 ltac:(lia)) as (k0 & v & Ek0 & Ev & _).
  unfold vget at 1. rewrite Ek0. cbn [bind]. unfold vget at 1. rewrite Ev. cbn [bind].
  destruct (take_equal_spec bn detect idx v (0 + 1) (S m - (0 + 1))) as (q & Lq & Eq & _).
  { intros j Hj. destruct (Hlook j ltac:(lia)) as (k & w & ? & ? & _). eauto. }
  rewrite Eq. cbn [bind]. cbn [length split_group].
  assert (HP : pos_ok (S m) idx [0; S m + 1] (0 :: seq (0 + 1) q)).
  { intros j Hj. assert (j < S m) by (destruct Hj as [<-|Hj]; [lia|apply in_seq in Hj; lia]).
    destruct (Hlook j ltac:(lia)) as (k & w & Ek & _ & Lk).
    exists k. split; [assumption|]. split; [assumption|]. intros [H'|[H'|[]]]; lia. }
  destruct (pick_spec (S m) mn mx idx [0; S m + 1] [0] _ (binv_init _ _ _) HP) as (lm & best & E & Hb). rewrite E. cbn [bind snd].
  destruct best as [c|]; [|discriminate]. exfalso.
  destruct Hb as (_ & _ & _ & hi & (_ & A2 & _) & L & E1 & E2 & M1 & M2).
  destruct A2 as [<-|[<-|[]]]; lia.
Qed.
End Uniform.

(** ** Detection profile *)
Section Detection.
Context {T : Type} (bn : bnum T).

Lemma vadd_map (f : nat -> T) n i x : i < n ->
  vadd bn (map f (seq 0 n)) i x = Ok (map (fun k => if k =? i then b_add bn (f i) x else f k) (seq 0 n)).
Proof.
  intros Hi. unfold vadd. rewrite nth_error_map_eq, nth_error_seq.
  destruct (Nat.ltb_spec i n); [|lia]. cbn [option_map Nat.add]. f_equal. apply nth_error_ext. intros k.
  rewrite nth_error_upd, !nth_error_map_eq, nth_error_seq, map_length, seq_length.
  destruct (Nat.eqb_spec i k) as [->|Hne].
  - destruct (Nat.ltb_spec k n); [|lia]. cbn. now rewrite Nat.eqb_refl.
  - cbn [andb]. destruct (Nat.ltb_spec k n); cbn [option_map]; [|reflexivity]. cbn [Nat.add].
    destruct (Nat.eqb_spec k i); [lia|reflexivity].
Qed.

Definition rpart (e : nat -> nat -> T) (k m : nat) : T := row_profile bn m e k.
Definition cpart (e : nat -> nat -> T) (k m : nat) : T := col_profile bn m e k.
Lemma rpart_S e k m : row_profile bn (S m) e k = b_add bn (row_profile bn m e k) (b_abs bn (b_sub bn (e k m) (e (S k) m))).
Proof. unfold row_profile. rewrite seq_S, map_app, fold_left_app. reflexivity. Qed.
Lemma cpart_S e k m : col_profile bn (S m) e k = b_add bn (col_profile bn m e k) (b_abs bn (b_sub bn (e m k) (e m (S k)))).
Proof. unfold col_profile. rewrite seq_S, map_app, fold_left_app. reflexivity. Qed.

Lemma frexp_copy_ok (d : dense T) (g : nat -> T) : (forall k, k < length (d_buf d) -> nth_error (d_buf d) k = Some (Some (g k))) ->
  frexp_copy bn d = Ok (map (fun k => Some (b_exp bn (g k))) (seq 0 (length (d_buf d)))).
Proof.
  intros H. unfold frexp_copy.
  assert (E : d_buf d = map (fun k => Some (g k)) (seq 0 (length (d_buf d)))).
  { apply nth_error_ext. intros i. rewrite nth_error_map_eq, nth_error_seq.
    destruct (Nat.ltb_spec i (length (d_buf d))); [now apply H|]. now apply nth_error_None. }
  rewrite E at 1. generalize (seq 0 (length (d_buf d))). intros l. induction l as [|x t IH]; cbn; [reflexivity|].
  now rewrite IH.
Qed.

Lemma detection_spec (d : dense T) r c (e : nat -> nat -> T) lg :
  d_rows d = r -> d_cols d = c -> 1 <= r -> 1 <= c -> frexp_copy bn d = Ok lg ->
  (forall i j, i < r -> j < c -> nth_error lg (i * c + j) = Some (Some (e i j))) ->
  detection bn d = Ok (map (row_profile bn c e) (seq 0 (r - 1)), map (col_profile bn r e) (seq 0 (c - 1))).
Proof.
  intros Hr Hc Lr Lc El Hlg. unfold detection. rewrite Hr, Hc.
  destruct (Nat.eqb_spec r 0); [lia|]. destruct (Nat.eqb_spec c 0); [lia|]. cbn [orb]. rewrite El. cbn [bind].
  assert (HrdL : forall i j, i < r -> j < c -> rd lg (i * c + j) = Ok (e i j)) by (intros; apply rd_ok; auto).
  set (R := fun i j k => if k <? i then row_profile bn c e k else if k =? i then row_profile bn j e k else b_zero bn).
  set (C := fun i j k => if k <? j then col_profile bn (S i) e k else col_profile bn i e k).
  assert (HR0 : forall l, map (R 0 0) l = repeat (b_zero bn) (length l)).
  { induction l as [|x t IH]; cbn; [reflexivity|]. rewrite <- IH. f_equal. unfold R. destruct (x =? 0); reflexivity. }
  assert (HC0 : forall l, map (col_profile bn 0 e) l = repeat (b_zero bn) (length l)).
  { induction l as [|x t IH]; cbn; [reflexivity|]. now rewrite <- IH. }
  edestruct (forM_inv (fun i st =>
      do st1 <- forM (c - 1) (fun j '(p, rowd, cold) =>
        do x <- diff bn lg p (p + c); do rowd' <- vadd bn rowd i x;
        do y <- diff bn lg p (p + 1); do cold' <- vadd bn cold j y;
        Ok (p + 1, rowd', cold')) st;
      let '(p, rowd, cold) := st1 in
      do x <- diff bn lg p (p + c); do rowd' <- vadd bn rowd i x;
      Ok (p + 1, rowd', cold))
    (fun i st => st = (i * c, map (R i 0) (seq 0 (r - 1)), map (col_profile bn i e) (seq 0 (c - 1))))
    (r - 1) (0, repeat (b_zero bn) (r - 1), repeat (b_zero bn) (c - 1))) as (st & E & ->).
  - rewrite HR0, HC0, !seq_length. reflexivity.
  - intros i st Hi ->.
    edestruct (forM_inv (fun j '(p, rowd, cold) =>
        do x <- diff bn lg p (p + c); do rowd' <- vadd bn rowd i x;
        do y <- diff bn lg p (p + 1); do cold' <- vadd bn cold j y;
        Ok (p + 1, rowd', cold'))
      (fun j st => st = (i * c + j, map (R i j) (seq 0 (r - 1)), map (C i j) (seq 0 (c - 1))))
      (c - 1) (i * c, map (R i 0) (seq 0 (r - 1)), map (col_profile bn i e) (seq 0 (c - 1)))) as (st & E & ->).
    + f_equal. f_equal. lia.
    + intros j st Hj ->. unfold diff.
      rewrite HrdL by lia. cbn [bind].
      replace (i * c + j + c) with (S i * c + j) by (cbn; lia). rewrite HrdL by lia. cbn [bind].
      rewrite vadd_map by lia. cbn [bind].
      replace (i * c + j + 1) with (i * c + S j) by lia. rewrite HrdL by lia. cbn [bind].
      rewrite vadd_map by lia. cbn [bind].
      eexists. split; [reflexivity|]. f_equal; [f_equal|].
      * apply map_ext. intros k. unfold R. destruct (Nat.eqb_spec k i) as [->|]; [|destruct (k <? i); reflexivity].
        rewrite Nat.ltb_irrefl, Nat.eqb_refl. now rewrite rpart_S.
      * apply map_ext. intros k. unfold C. destruct (Nat.eqb_spec k j) as [->|].
        -- rewrite Nat.ltb_irrefl. destruct (Nat.ltb_spec j (S j)); [|lia]. now rewrite cpart_S.
        -- destruct (Nat.ltb_spec k j), (Nat.ltb_spec k (S j)); try lia; reflexivity.
    + rewrite E. cbn [bind]. unfold diff. rewrite HrdL by lia. cbn [bind].
      replace (i * c + (c - 1) + c) with (S i * c + (c - 1)) by (cbn; lia). rewrite HrdL by lia. cbn [bind].
      rewrite vadd_map by lia. cbn [bind]. eexists. split; [reflexivity|]. f_equal; [f_equal; [cbn; lia|]|].
      * apply map_ext. intros k. unfold R. destruct (Nat.eqb_spec k i) as [->|Hne].
        -- rewrite Nat.ltb_irrefl, Nat.eqb_refl. destruct (Nat.ltb_spec i (S i)); [|lia].
           rewrite <- rpart_S. f_equal. lia.
        -- destruct (Nat.ltb_spec k i), (Nat.ltb_spec k (S i)); try lia; [reflexivity|].
           destruct (k =? S i); reflexivity.
      * apply map_ext_in. intros k Hk. apply in_seq in Hk. unfold C. destruct (Nat.ltb_spec k (c - 1)); [reflexivity|lia].
  - rewrite E. cbn [bind].
    edestruct (forM_inv (fun j '(p, rowd, cold) =>
        do y <- diff bn lg p (p + 1); do cold' <- vadd bn cold j y;
        Ok (p + 1, rowd, cold'))
      (fun j st => st = ((r - 1) * c + j, map (R (r - 1) 0) (seq 0 (r - 1)), map (C (r - 1) j) (seq 0 (c - 1))))
      (c - 1) ((r - 1) * c, map (R (r - 1) 0) (seq 0 (r - 1)), map (col_profile bn (r - 1) e) (seq 0 (c - 1)))) as (st & E2 & ->).
    + f_equal. f_equal. lia.
    + intros j st Hj ->. unfold diff. rewrite HrdL by lia. cbn [bind].
      replace ((r - 1) * c + j + 1) with ((r - 1) * c + S j) by lia. rewrite HrdL by lia. cbn [bind].
      rewrite vadd_map by lia. cbn [bind]. eexists. split; [reflexivity|]. f_equal.
      apply map_ext. intros k. unfold C. destruct (Nat.eqb_spec k j) as [->|].
      * rewrite Nat.ltb_irrefl. destruct (Nat.ltb_spec j (S j)); [|lia]. now rewrite cpart_S.
      * destruct (Nat.ltb_spec k j), (Nat.ltb_spec k (S j)); try lia; reflexivity.
    + rewrite E2. cbn [bind]. f_equal. f_equal.
      * apply map_ext_in. intros k Hk. apply in_seq in Hk. unfold R. destruct (Nat.ltb_spec k (r - 1)); [reflexivity|lia].
      * apply map_ext_in. intros k Hk. apply in_seq in Hk. unfold C. destruct (Nat.ltb_spec k (c - 1)); [|lia].
        f_equal. lia.
Qed.
End Detection.
