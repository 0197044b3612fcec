(** Handles simulate values: the simulation relation and the step. *)
From Verif Require Import Base BaseLemmas Dense_Model Sparse_Model Mult_Model Dyn_Model PObj_Model PObj_Spec PObj_Proofs PObj2_Proofs.

Section P.
Context {F D : Type} (ar : arith F D).
Implicit Types (h : heap F D) (m : pst F D) (s : vst F D).

(** Nothing but variable [v] refers to object [a]. *)
Definition lonely m (v a : nat) : Prop :=
  (forall w, nth_error (p_var m) w = Some (Some a) -> w = v) /\
  (forall B, In B (p_blk m) -> ~ refs_blk B a) /\ not_part (p_heap m) a.

Record sim m s : Prop := mkSim {
  sim_wf : wf_heap (p_heap m);
  sim_var : Forall2 (fun q (xw : option (dyn F D) * bool) => load (p_heap m) q = Ok (fst xw)) (p_var m) (v_var s);
  sim_blk : Forall2 (brel (p_heap m)) (p_blk m) (v_blk s);
  sim_own : forall v a x, nth_error (p_var m) v = Some (Some a) -> nth_error (v_var s) v = Some (x, true) -> lonely m v a }.

Lemma sim0 : sim (pst0 : pst F D) vst0.
Proof.
  constructor; cbn.
  - intros [|c] t1 t2 p1 p2 E; discriminate.
  - constructor.
  - constructor.
  - intros [|v] a x E; discriminate.
Qed.

Lemma var_cases m s v : sim m s ->
  (nth_error (p_var m) v = None /\ nth_error (v_var s) v = None) \/
  (exists q x w, nth_error (p_var m) v = Some q /\ nth_error (v_var s) v = Some (x, w) /\ load (p_heap m) q = Ok x).
Proof.
  intros S. pose proof (Forall2_nth _ _ _ (sim_var _ _ S) v) as H.
  destruct (nth_error (p_var m) v) as [q|], (nth_error (v_var s) v) as [[x w]|]; cbn in H; try contradiction; [right|left]; eauto 8.
Qed.
Lemma blk_cases m s b : sim m s ->
  (nth_error (p_blk m) b = None /\ nth_error (v_blk s) b = None) \/
  (exists B V, nth_error (p_blk m) b = Some B /\ nth_error (v_blk s) b = Some V /\ brel (p_heap m) B V).
Proof.
  intros S. pose proof (Forall2_nth _ _ _ (sim_blk _ _ S) b) as H.
  destruct (nth_error (p_blk m) b) as [q|], (nth_error (v_blk s) b) as [x|]; cbn in H; try contradiction; [right|left]; eauto 8.
Qed.

Lemma refs_lt h B V a : brel h B V -> refs_blk B a -> a < length h.
Proof.
  intros ((_ & _ & _ & G) & _) Hin. unfold refs_blk in Hin. apply In_nth_error in Hin as [k Ek].
  pose proof (Forall2_nth _ _ _ G k) as H. rewrite Ek in H. destruct (nth_error (d_buf (b_mat V)) k) as [[x|]|]; cbn in H; try contradiction.
  eapply load_lt; eauto.
Qed.
Lemma sim_var_lt m s v a : sim m s -> nth_error (p_var m) v = Some (Some a) -> a < length (p_heap m).
Proof. intros S E. destruct (var_cases m s v S) as [[H _]|(q & x & w & Eq & _ & L)]; [congruence|]. rewrite E in Eq. injection Eq as <-. eapply load_lt; eauto. Qed.
Lemma sim_blk_lt m s B a : sim m s -> In B (p_blk m) -> refs_blk B a -> a < length (p_heap m).
Proof.
  intros S Hin R. apply In_nth_error in Hin as [b Eb]. destruct (blk_cases m s b S) as [[H _]|(B' & V & EB & _ & H)]; [congruence|].
  rewrite Eb in EB. injection EB as <-. eapply refs_lt; eauto.
Qed.

Lemma nth_app1 {A} (l k : list A) i x : nth_error l i = Some x -> nth_error (l ++ k) i = Some x.
Proof. intros E. rewrite nth_error_app1; auto. apply nth_error_Some. congruence. Qed.

(** The heap grows. *)
Lemma not_part_news h h' a : wf_heap h -> news h h' -> a < length h -> not_part h a -> not_part h' a.
Proof.
  intros W (l & -> & H) La N c t1 t2 p1 p2 E. apply nth_app_cases in E as [[_ E]|[_ E]]; [eauto|].
  apply nth_error_In in E. destruct (H _ _ _ _ E) as [H1 H2]. split; intros ->; [specialize (H1 _ eq_refl)|specialize (H2 _ eq_refl)]; lia.
Qed.
Lemma Forall2_snoc {A B} (P : A -> B -> Prop) l k a b : Forall2 P l k -> P a b -> Forall2 P (l ++ [a]) (k ++ [b]).
Proof. induction 1; cbn; intros; constructor; auto. Qed.

Lemma sim_news m s h' : sim m s -> news (p_heap m) h' -> wf_heap h' -> sim (mkPst h' (p_var m) (p_blk m)) s.
Proof.
  intros S N W. constructor; cbn.
  - exact W.
  - eapply Forall2_imp; [|apply (sim_var _ _ S)]. intros q xw L. eapply load_news; eauto.
  - eapply Forall2_imp; [|apply (sim_blk _ _ S)]. intros B V L. eapply brel_news; eauto.
  - intros v a x Ep Ev. destruct (sim_own _ _ S v a x Ep Ev) as (H1 & H2 & H3). split; [exact H1|split; [exact H2|]]. cbn.
    apply (not_part_news (p_heap m)); [apply (sim_wf _ _ S)|exact N|eapply sim_var_lt; eauto|exact H3].
Qed.

(** A new variable for a new object. *)
Lemma sim_new_var m s h' q x : sim m s -> news (p_heap m) h' -> wf_heap h' -> load h' q = Ok x ->
  (forall a, q = Some a -> length (p_heap m) <= a) -> (forall a, q = Some a -> not_part h' a) ->
  sim (mkPst h' (p_var m ++ [q]) (p_blk m)) (fst (vadd s x true)).
Proof.
  intros S N W L Fq Np. pose proof (sim_news _ _ _ S N W) as S'. constructor; cbn.
  - exact W.
  - apply Forall2_snoc; [apply (sim_var _ _ S')|exact L].
  - apply (sim_blk _ _ S').
  - pose proof (Forall2_len _ _ _ (sim_var _ _ S)) as Le.
    intros v a y Ep Ev. apply nth_app_cases in Ep as [[Lv Ep]|[Lv Ep]].
    + rewrite nth_error_app1 in Ev by lia. destruct (sim_own _ _ S' v a y Ep Ev) as (H1 & H2 & H3). split; [|split; [exact H2|exact H3]].
      cbn. intros w Ew. apply nth_app_cases in Ew as [[Lw Ew]|[Lw Ew]]; [now apply H1|].
      destruct (w - length (p_var m)) as [|[|]]; try discriminate. injection Ew as ->. specialize (Fq _ eq_refl).
      pose proof (sim_var_lt _ _ _ _ S Ep). lia.
    + destruct (v - length (p_var m)) as [|[|]] eqn:Edv; try discriminate. injection Ep as ->. specialize (Fq _ eq_refl). specialize (Np _ eq_refl).
      split; [|split; [|exact Np]].
      * cbn. intros w Ew. apply nth_app_cases in Ew as [[Lw Ew]|[Lw Ew]]; [apply (sim_var_lt _ _ _ _ S) in Ew; lia|].
        destruct (w - length (p_var m)) as [|[|]] eqn:Ed; try discriminate. lia.
      * cbn. intros B HB R. apply (sim_blk_lt _ _ _ _ S HB) in R. lia.
Qed.

(** An old handle [q] that no variable owns. *)
Definition unowned m s (q : option nat) : Prop :=
  forall v a x, q = Some a -> nth_error (p_var m) v = Some (Some a) -> nth_error (v_var s) v <> Some (x, true).
Lemma sim_old_var m s q x : sim m s -> load (p_heap m) q = Ok x -> unowned m s q ->
  sim (mkPst (p_heap m) (p_var m ++ [q]) (p_blk m)) (fst (vadd s x false)).
Proof.
  intros S L U. constructor; cbn.
  - apply (sim_wf _ _ S).
  - apply Forall2_snoc; [apply (sim_var _ _ S)|exact L].
  - apply (sim_blk _ _ S).
  - pose proof (Forall2_len _ _ _ (sim_var _ _ S)) as Le.
    intros v a y Ep Ev. apply nth_app_cases in Ep as [[Lv Ep]|[Lv Ep]].
    + rewrite nth_error_app1 in Ev by lia. destruct (sim_own _ _ S v a y Ep Ev) as (H1 & H2 & H3). split; [|split; [exact H2|exact H3]].
      cbn. intros w Ew. apply nth_app_cases in Ew as [[Lw Ew]|[Lw Ew]]; [now apply H1|].
      destruct (w - length (p_var m)) as [|[|]]; try discriminate. injection Ew as ->. exfalso. eapply U; eauto.
    + rewrite nth_error_app2 in Ev by lia. replace (v - length (v_var s)) with (v - length (p_var m)) in Ev by lia.
      destruct (v - length (p_var m)) as [|[|]]; discriminate.
Qed.

Lemma share_nth s v w : nth_error (v_var (share s v)) w =
  if w =? v then option_map (fun xw => (fst xw, false)) (nth_error (v_var s) v) else nth_error (v_var s) w.
Proof.
  unfold share. destruct (Nat.eqb_spec w v) as [->|Hn].
  - destruct (nth_error (v_var s) v) as [[x o]|] eqn:E; cbn; [|exact E]. rewrite nth_error_upd_eq; auto. apply nth_error_Some. congruence.
  - destruct (nth_error (v_var s) v) as [[x o]|] eqn:E; cbn; auto. now rewrite nth_error_upd_ne by auto.
Qed.
Lemma share_owner s v w x : nth_error (v_var (share s v)) w = Some (x, true) -> w <> v /\ nth_error (v_var s) w = Some (x, true).
Proof.
  rewrite share_nth. destruct (Nat.eqb_spec w v) as [->|Hn]; auto. destruct (nth_error (v_var s) v) as [[y o]|]; discriminate.
Qed.
Lemma share_blk s v : v_blk (share s v) = v_blk s.
Proof. unfold share. destruct (nth_error (v_var s) v) as [[]|]; reflexivity. Qed.
Lemma share_length s v : length (v_var (share s v)) = length (v_var s).
Proof. unfold share. destruct (nth_error (v_var s) v) as [[]|]; cbn; auto. apply upd_length. Qed.
Lemma share_val s v w x o : nth_error (v_var s) w = Some (x, o) -> exists o', nth_error (v_var (share s v)) w = Some (x, o').
Proof.
  intros E. rewrite share_nth. destruct (Nat.eqb_spec w v) as [<-|Hn]; [rewrite E; cbn|]; eauto.
Qed.

Lemma Forall2_of_nth {A B} (P : A -> B -> Prop) l k : length l = length k ->
  (forall i a b, nth_error l i = Some a -> nth_error k i = Some b -> P a b) -> Forall2 P l k.
Proof.
  revert k. induction l as [|a l IH]; intros [|b k] H1 H2; try discriminate; constructor.
  - apply (H2 0); reflexivity.
  - apply IH; [now injection H1|]. intros i. apply (H2 (S i)).
Qed.

Lemma sim_share m s v : sim m s -> sim m (share s v).
Proof.
  intros S. constructor.
  - apply (sim_wf _ _ S).
  - apply Forall2_of_nth.
    + rewrite share_length. apply (Forall2_len _ _ _ (sim_var _ _ S)).
    + intros w q [x o] Eq Ex. destruct (var_cases m s w S) as [[H _]|(q' & x' & o' & Eq' & Ex' & L)]; [congruence|].
      destruct (share_val s v w x' o' Ex') as [o2 E2]. cbn. congruence.
  - rewrite share_blk. apply (sim_blk _ _ S).
  - intros w a x Ep Ev. apply share_owner in Ev as [_ Ev]. eapply sim_own; eauto.
Qed.
Lemma unowned_share m s v q : sim m s -> nth_error (p_var m) v = Some q -> unowned m (share s v) q.
Proof.
  intros S E w a x -> Ew Ex. apply share_owner in Ex as [Hn Ex]. destruct (sim_own _ _ S w a x Ew Ex) as (H1 & _). apply Hn. symmetry. now apply H1.
Qed.
Lemma unowned_share2 m s v q : sim m s -> unowned m s q -> unowned m (share s v) q.
Proof. intros S U w a x E Ew Ex. apply share_owner in Ex as [_ Ex]. eapply U; eauto. Qed.

Lemma nth_upd_cases {A} (l : list A) i j x y : nth_error (upd l i x) j = Some y -> (j = i /\ y = x /\ i < length l) \/ (j <> i /\ nth_error l j = Some y).
Proof.
  intros E. destruct (Nat.eq_dec j i) as [->|Hn].
  - left. assert (i < length l). { assert (i < length (upd l i x)) by (apply nth_error_Some; congruence). now rewrite upd_length in *. }
    rewrite nth_error_upd_eq in E by auto. repeat split; auto; congruence.
  - right. now rewrite nth_error_upd_ne in E by auto.
Qed.
Lemma In_upd {A} (l : list A) i x y : In y (upd l i x) -> y = x \/ In y l.
Proof. revert i. induction l as [|z l IH]; intros [|i]; cbn; intros H; auto; destruct H as [H|H]; auto. destruct (IH _ H); auto. Qed.

(** Assignment of an unowned handle. *)
Lemma sim_set_var m s d q x : sim m s -> load (p_heap m) q = Ok x -> unowned m s q ->
  sim (mkPst (p_heap m) (upd (p_var m) d q) (p_blk m)) (set_var s d x false).
Proof.
  intros S L U. constructor; cbn.
  - apply (sim_wf _ _ S).
  - apply Forall2_upd; [apply (sim_var _ _ S)|exact L].
  - apply (sim_blk _ _ S).
  - intros v a y Ep Ev. apply nth_upd_cases in Ev as [(_ & E & _)|[Hn Ev]]; [discriminate|].
    rewrite nth_error_upd_ne in Ep by auto. destruct (sim_own _ _ S v a y Ep Ev) as (H1 & H2 & H3). split; [|split; auto].
    cbn. intros w Ew. apply nth_upd_cases in Ew as [(-> & E & _)|[_ Ew]]; [|now apply H1]. exfalso. eapply U; eauto.
Qed.

(** A new two-part object with unowned parts. *)
Lemma load_app h l q v : load h q = Ok v -> load (h ++ l) q = Ok v.
Proof.
  assert (PP : forall q k, part h q = Ok k -> part (h ++ l) q = Ok k).
  { intros [a|] k; cbn [part]; auto. destruct (nth_error h a) as [o|] eqn:E; [|discriminate]. now rewrite (nth_app1 _ _ _ _ E). }
  destruct q as [a|]; cbn [load]; auto. destruct (nth_error h a) as [[x|t1 t2 p1 p2]|] eqn:E; [| |discriminate]; rewrite (nth_app1 _ _ _ _ E); auto.
  destruct (part h p1) eqn:E1; cbn [bind]; try discriminate. destruct (part h p2) eqn:E2; cbn [bind]; try discriminate.
  now rewrite (PP _ _ E1), (PP _ _ E2).
Qed.
Lemma brel_app h l B V : brel h B V -> brel (h ++ l) B V.
Proof.
  intros ((A & B1 & E & G) & U). split; [|exact U]. repeat split; auto. eapply Forall2_imp; [|exact G].
  intros [c|] [v|]; cbn; auto. apply load_app.
Qed.
Lemma wf_part_app h l t q : wf_part h t q -> wf_part (h ++ l) t q.
Proof. destruct q as [a|]; cbn; auto. intros (x & E & T). exists x. split; auto. now apply nth_app1. Qed.

Lemma sim_pair m s t1 t2 q1 q2 (m1 m2 : option (leaf F D)) : sim m s -> unowned m s q1 -> unowned m s q2 ->
  wf_part (p_heap m) t1 q1 -> wf_part (p_heap m) t2 q2 -> part (p_heap m) q1 = Ok m1 -> part (p_heap m) q2 = Ok m2 ->
  sim (mkPst (p_heap m ++ [HM t1 t2 q1 q2]) (p_var m ++ [Some (length (p_heap m))]) (p_blk m)) (fst (vadd s (Some (DM t1 t2 m1 m2)) true)).
Proof.
  intros S U1 U2 W1 W2 P1 P2. set (h := p_heap m) in *.
  assert (S' : sim (mkPst (h ++ [HM t1 t2 q1 q2]) (p_var m) (p_blk m)) s).
  { constructor; cbn.
    - intros c s1 s2 p1 p2 E. apply nth_app_cases in E as [[_ E]|[_ E]].
      + destruct (sim_wf _ _ S _ _ _ _ _ E). split; now apply wf_part_app.
      + destruct (c - length h) as [|[|]]; try discriminate. injection E as <- <- <- <-. split; now apply wf_part_app.
    - eapply Forall2_imp; [|apply (sim_var _ _ S)]. intros q xw L. now apply load_app.
    - eapply Forall2_imp; [|apply (sim_blk _ _ S)]. intros B V L. now apply brel_app.
    - intros v a x Ep Ev. destruct (sim_own _ _ S v a x Ep Ev) as (H1 & H2 & H3). split; [exact H1|split; [exact H2|]]. cbn.
      intros c s1 s2 p1 p2 E. apply nth_app_cases in E as [[_ E]|[_ E]]; [now apply H3 in E|].
      destruct (c - length h) as [|[|]]; try discriminate. injection E as <- <- <- <-. split; intros ->; [eapply U1|eapply U2]; eauto. }
  assert (Np : not_part (h ++ [HM t1 t2 q1 q2]) (length h)).
  { intros c s1 s2 p1 p2 E. apply (sim_wf _ _ S') in E as [E1 E2]. cbn [p_heap] in *.
    split; intros ->; [destruct E1 as (l & E & _)|destruct E2 as (l & E & _)]; rewrite nth_last in E; discriminate. }
  constructor; cbn.
  - apply (sim_wf _ _ S').
  - apply Forall2_snoc; [apply (sim_var _ _ S')|]. cbn [fst load]. rewrite nth_last.
    assert (PP : forall q k, part h q = Ok k -> part (h ++ [HM t1 t2 q1 q2]) q = Ok k).
    { intros [a|] k; cbn [part]; auto. destruct (nth_error h a) as [o|] eqn:E; [|discriminate]. now rewrite (nth_app1 _ _ _ _ E). }
    now rewrite (PP _ _ P1), (PP _ _ P2).
  - apply (sim_blk _ _ S').
  - pose proof (Forall2_len _ _ _ (sim_var _ _ S)) as Le.
    intros v a y Ep Ev. apply nth_app_cases in Ep as [[Lv Ep]|[Lv Ep]].
    + rewrite nth_error_app1 in Ev by lia. destruct (sim_own _ _ S' v a y Ep Ev) as (H1 & H2 & H3). split; [|split; [exact H2|exact H3]].
      cbn. intros w Ew. apply nth_app_cases in Ew as [[Lw Ew]|[Lw Ew]]; [now apply H1|].
      destruct (w - length (p_var m)) as [|[|]]; try discriminate. injection Ew as Ew. pose proof (sim_var_lt _ _ _ _ S Ep). fold h in H. lia.
    + destruct (v - length (p_var m)) as [|[|]] eqn:Edv; try discriminate. injection Ep as <-.
      split; [|split; [|exact Np]].
      * cbn. intros w Ew. apply nth_app_cases in Ew as [[Lw Ew]|[Lw Ew]]; [apply (sim_var_lt _ _ _ _ S) in Ew; fold h in Ew; lia|].
        destruct (w - length (p_var m)) as [|[|]] eqn:Ed; try discriminate. lia.
      * cbn. intros B HB R. apply (sim_blk_lt _ _ _ _ S HB) in R. fold h in R. lia.
Qed.

(** Blocked variables. *)
Lemma sim_new_blk m s h' B V : sim m s -> news (p_heap m) h' -> wf_heap h' -> brel h' B V ->
  (forall a, refs_blk B a -> length (p_heap m) <= a) ->
  sim (mkPst h' (p_var m) (p_blk m ++ [B])) (fst (badd s V)).
Proof.
  intros S N W L Fb. pose proof (sim_news _ _ _ S N W) as S'. constructor; cbn.
  - exact W.
  - apply (sim_var _ _ S').
  - apply Forall2_snoc; [apply (sim_blk _ _ S')|exact L].
  - intros v a y Ep Ev. destruct (sim_own _ _ S' v a y Ep Ev) as (H1 & H2 & H3). split; [exact H1|split; [|exact H3]].
    cbn. intros B' HB R. apply in_app_or in HB as [HB|[<-|[]]]; [now apply (H2 _ HB)|]. apply Fb in R.
    pose proof (sim_var_lt _ _ _ _ S Ep). lia.
Qed.
Definition unowned_blk m s (B : hblocked) : Prop := forall a, refs_blk B a -> unowned m s (Some a).
Lemma unowned_in m s B : sim m s -> In B (p_blk m) -> unowned_blk m s B.
Proof. intros S HB a R v c x E Ep Ev. injection E as <-. destruct (sim_own _ _ S v a x Ep Ev) as (_ & H2 & _). exact (H2 _ HB R). Qed.
Lemma sim_old_blk m s B V : sim m s -> brel (p_heap m) B V -> unowned_blk m s B ->
  sim (mkPst (p_heap m) (p_var m) (p_blk m ++ [B])) (fst (badd s V)).
Proof.
  intros S L U. constructor; cbn.
  - apply (sim_wf _ _ S).
  - apply (sim_var _ _ S).
  - apply Forall2_snoc; [apply (sim_blk _ _ S)|exact L].
  - intros v a y Ep Ev. destruct (sim_own _ _ S v a y Ep Ev) as (H1 & H2 & H3). split; [exact H1|split; [|exact H3]].
    cbn. intros B' HB R. apply in_app_or in HB as [HB|[<-|[]]]; [now apply (H2 _ HB)|]. eapply U; eauto.
Qed.
Lemma sim_set_blk m s b B V : sim m s -> brel (p_heap m) B V -> unowned_blk m s B ->
  sim (mkPst (p_heap m) (p_var m) (upd (p_blk m) b B)) (mkVst (v_var s) (upd (v_blk s) b V)).
Proof.
  intros S L U. constructor; cbn.
  - apply (sim_wf _ _ S).
  - apply (sim_var _ _ S).
  - apply Forall2_upd; [apply (sim_blk _ _ S)|exact L].
  - intros v a y Ep Ev. destruct (sim_own _ _ S v a y Ep Ev) as (H1 & H2 & H3). split; [exact H1|split; [|exact H3]].
    cbn. intros B' HB R. apply In_upd in HB as [->|HB]; [|now apply (H2 _ HB)]. eapply U; eauto.
Qed.

(** A change of the object of an owner. *)
Lemma sim_change m s v a x x' : sim m s -> nth_error (p_var m) v = Some (Some a) -> nth_error (v_var s) v = Some (Some (DL x), true) ->
  nth_error (p_heap m) a = Some (HL x) -> leaf_ty x' = leaf_ty x ->
  sim (mkPst (upd (p_heap m) a (HL x')) (p_var m) (p_blk m)) (set_var s v (Some (DL x')) true).
Proof.
  intros S Ep Ev Ea T. destruct (sim_own _ _ S _ _ _ Ep Ev) as (H1 & H2 & H3). set (h := p_heap m) in *.
  assert (La : a < length h) by (apply nth_error_Some; congruence).
  constructor; cbn.
  - eapply wf_upd; eauto. apply (sim_wf _ _ S).
  - apply Forall2_of_nth; [rewrite upd_length; apply (Forall2_len _ _ _ (sim_var _ _ S))|].
    intros w q xo Eq Ex. apply nth_upd_cases in Ex as [(-> & -> & _)|[Hn Ex]].
    + rewrite Ep in Eq. injection Eq as <-. cbn. rewrite nth_error_upd_eq; auto.
    + destruct (var_cases m s w S) as [[H _]|(q' & x2 & o' & Eq' & Ex' & L)]; [congruence|].
      rewrite (load_upd h a x); auto; [|intros ->; apply Hn; now apply H1]. rewrite Ex in Ex'. injection Ex' as ->. rewrite Eq in Eq'. injection Eq' as <-. exact L.
  - apply Forall2_of_nth; [apply (Forall2_len _ _ _ (sim_blk _ _ S))|]. intros b B V EB EV.
    destruct (blk_cases m s b S) as [[H _]|(B' & V' & EB' & EV' & R)]; [congruence|]. rewrite EB in EB'. injection EB' as <-. rewrite EV in EV'. injection EV' as <-.
    apply nth_error_In in EB. specialize (H2 _ EB). destruct R as ((R1 & R2 & R3 & R4) & R5). split; [|exact R5]. repeat split; auto.
    unfold refs_blk in H2. revert H2. induction R4 as [|c y l k Hc R4 IH]; intros H2; constructor.
    + destruct c as [q|], y as [y|]; cbn in *; auto. rewrite (load_upd h a x); auto. intros ->. apply H2. now left.
    + apply IH. intros Hin. apply H2. now right.
  - intros w c y Ew Ev2.
    assert (Hw : exists y2, nth_error (v_var s) w = Some (y2, true)).
    { apply nth_upd_cases in Ev2 as [(-> & _)|[_ Ev2]]; eauto. }
    destruct Hw as [y2 Ey]. destruct (sim_own _ _ S _ _ _ Ew Ey) as (G1 & G2 & G3). split; [exact G1|split; [exact G2|]]. cbn. eapply not_part_upd; eauto.
Qed.
End P.
