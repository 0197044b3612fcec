(** Sparse matrices as lists of lines: bridge between the arrays and the entries. *)
From Verif Require Import Base BaseLemmas Dense_Model Dense_Spec Dense_Proofs Dense2_Proofs Sparse_Model Sparse_Spec.
From Coq Require Import Sorting.Sorted.

Fixpoint psum {A} (n : nat) (L : list (list A)) : list nat :=
  n :: match L with [] => [] | l :: t => psum (n + length l) t end.

Definition start {A} (L : list (list A)) (l : nat) : nat := length (concat (firstn l L)).

Definition lk {T} (k : nat) (line : list (nat * T)) : option T :=
  option_map snd (find (fun e => fst e =? k) line).

Definition repr {T} (s : sparse T) (L : list (list (nat * T))) : Prop :=
  s_off s = map Some (psum 0 L) /\
  exists tv tk, s_val s = map (fun e => Some (snd e)) (concat L) ++ tv /\
                s_key s = map (fun e => Some (fst e)) (concat L) ++ tk /\
                length tv = length tk.

Definition line_ok {T} (major : nat) (line : list (nat * T)) : Prop :=
  StronglySorted lt (map fst line) /\ Forall (fun k => k < major) (map fst line).
Definition lines_ok {T} (major : nat) (L : list (list (nat * T))) : Prop := Forall (line_ok major) L.

Lemma psum_length {A} n (L : list (list A)) : length (psum n L) = S (length L).
Proof. revert n; induction L; intros; simpl; auto. Qed.

Lemma psum_nth {A} n (L : list (list A)) l : l <= length L ->
  nth_error (psum n L) l = Some (n + start L l).
Proof.
  unfold start. revert n l; induction L as [|x t IH]; intros n [|l] Hl; simpl in *; try lia.
  - f_equal; lia.
  - f_equal; lia.
  - rewrite IH by lia. rewrite app_length. f_equal; lia.
Qed.

Lemma psum_app {A} n (L : list (list A)) l :
  psum n (L ++ [l]) = psum n L ++ [n + length (concat L) + length l].
Proof.
  revert n; induction L as [|x t IH]; intros n; simpl.
  - do 2 f_equal. lia.
  - rewrite IH, app_length. simpl. do 3 f_equal. lia.
Qed.

Lemma start_all {A} (L : list (list A)) : start L (length L) = length (concat L).
Proof. unfold start. now rewrite firstn_all. Qed.

Lemma start_S {A} (L : list (list A)) l line :
  nth_error L l = Some line -> start L (S l) = start L l + length line.
Proof.
  unfold start. revert l; induction L as [|x t IH]; intros [|l] E; simpl in *; try discriminate.
  - inversion E; subst. rewrite app_nil_r. lia.
  - specialize (IH l E). simpl in IH. rewrite !app_length. destruct t; [destruct l; discriminate|].
    simpl in *. lia.
Qed.

Lemma start_le {A} (L : list (list A)) l : start L l <= length (concat L).
Proof.
  unfold start. rewrite <- (firstn_skipn l L) at 2. rewrite concat_app, app_length. lia.
Qed.

Lemma concat_nth {A} (L : list (list A)) l line q : nth_error L l = Some line -> q < length line ->
  nth_error (concat L) (start L l + q) = nth_error line q.
Proof.
  unfold start. revert l; induction L as [|x t IH]; intros [|l] E Hq; simpl in *; try discriminate.
  - inversion E; subst. now rewrite nth_error_app1.
  - rewrite nth_error_app2 by (rewrite app_length; lia). rewrite app_length.
    replace (length x + length (concat (firstn l t)) + q - length x)
      with (length (concat (firstn l t)) + q) by lia. now apply IH.
Qed.

Lemma rd_map_some {A T} (h : A -> T) (l : list A) tl i x : nth_error l i = Some x ->
  rd (map (fun e => Some (h e)) l ++ tl) i = Ok (h x).
Proof.
  intros E. unfold rd. assert (i < length l) by (apply nth_error_Some; congruence).
  rewrite nth_error_app1 by (now rewrite map_length). rewrite nth_error_map, E. reflexivity.
Qed.

Section Repr.
Context {T : Type} (s : sparse T) (L : list (list (nat * T))).
Hypothesis HR : repr s L.

Lemma repr_off l : l <= length L -> rd (s_off s) l = Ok (start L l).
Proof.
  intros Hl. pose proof HR as (Ho & _). rewrite Ho.
  replace (map Some (psum 0 L)) with (map (fun e => Some e) (psum 0 L) ++ []) by apply app_nil_r.
  rewrite (rd_map_some (fun e => e) (psum 0 L) [] l (start L l)); auto.
  now rewrite psum_nth.
Qed.

Lemma repr_nlines : s_nlines s = Ok (length L).
Proof.
  pose proof HR as (Ho & _). unfold s_nlines. rewrite Ho, map_length, psum_length. reflexivity.
Qed.

Lemma ptr_loop_seq n b : ptr_loop (S n) b (b + n) 1 = Ok (seq b n).
Proof.
  revert b; induction n as [|n IH]; intros b.
  - simpl. rewrite Nat.add_0_r, Nat.eqb_refl. reflexivity.
  - change (ptr_loop (S (S n)) b (b + S n) 1)
      with (if b =? b + S n then Ok [] else do t <- ptr_loop (S n) (b + 1) (b + S n) 1; Ok (b :: t)).
    destruct (Nat.eqb_spec b (b + S n)); [lia|].
    replace (b + S n) with ((b + 1) + n) by lia. rewrite IH. simpl.
    replace (b + 1) with (S b) by lia. reflexivity.
Qed.

Lemma repr_range l line : nth_error L l = Some line ->
  s_range s l = Ok (seq (start L l) (length line)).
Proof.
  intros E. assert (l < length L) by (apply nth_error_Some; congruence).
  unfold s_range. rewrite !repr_off by lia. simpl. rewrite (start_S L l line E).
  replace (start L l + length line - start L l) with (length line) by lia.
  apply (ptr_loop_seq (length line) (start L l)).
Qed.

Lemma repr_key l line q k v : nth_error L l = Some line -> nth_error line q = Some (k, v) ->
  rd (s_key s) (start L l + q) = Ok k.
Proof.
  intros E E2. pose proof HR as (_ & tv & tk & _ & Hk & _). rewrite Hk.
  apply (rd_map_some fst (concat L) tk _ (k, v)). rewrite (concat_nth L l line); auto.
  apply nth_error_Some; congruence.
Qed.
Lemma repr_val l line q k v : nth_error L l = Some line -> nth_error line q = Some (k, v) ->
  rd (s_val s) (start L l + q) = Ok v.
Proof.
  intros E E2. pose proof HR as (_ & tv & tk & Hv & _). rewrite Hv.
  apply (rd_map_some snd (concat L) tv _ (k, v)). rewrite (concat_nth L l line); auto.
  apply nth_error_Some; congruence.
Qed.

(** A fold over positions of a line is a fold over its entries. *)
Lemma line_fold_in {X} (F : nat -> T -> X -> res X) (G : nat -> X -> res X) l line st :
  nth_error L l = Some line ->
  (forall p k v st, In (k, v) line -> rd (s_key s) p = Ok k -> rd (s_val s) p = Ok v -> G p st = F k v st) ->
  foldM G (seq (start L l) (length line)) st = foldM (fun '(k, v) st => F k v st) line st.
Proof.
  intros E HG.
  assert (Hgen : forall n q st, q + n = length line ->
    foldM G (seq (start L l + q) n) st = foldM (fun '(k, v) st => F k v st) (skipn q line) st).
  { induction n as [|n IH]; intros q st' Hq.
    - rewrite skipn_all2 by lia. reflexivity.
    - destruct (nth_error line q) as [[k v]|] eqn:Eq.
      2:{ apply nth_error_None in Eq. lia. }
      assert (Hs : skipn q line = (k, v) :: skipn (S q) line).
      { clear -Eq. revert q Eq. induction line as [|x t IH]; intros [|q] Eq; simpl in *; try discriminate.
        - now inversion Eq.
        - apply IH; auto. }
      rewrite Hs. cbn [seq foldM].
      rewrite (HG _ k v st' (nth_error_In _ _ Eq) (repr_key l line q k v E Eq) (repr_val l line q k v E Eq)).
      apply bind_ext; intros st1 _. replace (S (start L l + q)) with (start L l + S q) by lia.
      apply IH. lia. }
  specialize (Hgen (length line) 0 st). rewrite Nat.add_0_r in Hgen. apply Hgen. lia.
Qed.
Lemma line_fold {X} (F : nat -> T -> X -> res X) (G : nat -> X -> res X) l line st :
  nth_error L l = Some line ->
  (forall p k v st, rd (s_key s) p = Ok k -> rd (s_val s) p = Ok v -> G p st = F k v st) ->
  foldM G (seq (start L l) (length line)) st = foldM (fun '(k, v) st => F k v st) line st.
Proof. intros E HG. apply line_fold_in; auto. Qed.

Lemma repr_read p l : in_line s l p -> l < length L ->
  exists line q k v, nth_error L l = Some line /\ p = start L l + q /\ nth_error line q = Some (k, v) /\
    rd (s_key s) p = Ok k /\ rd (s_val s) p = Ok v.
Proof.
  intros (b & e & Hb & He & Hp) Hl. rewrite repr_off in Hb, He by lia.
  injection Hb as <-. injection He as <-.
  destruct (nth_error L l) as [line|] eqn:E; [|apply nth_error_None in E; lia].
  rewrite (start_S L l line E) in Hp.
  destruct (nth_error line (p - start L l)) as [[k v]|] eqn:Eq; [|apply nth_error_None in Eq; lia].
  exists line, (p - start L l), k, v.
  assert (p = start L l + (p - start L l)) by lia.
  repeat split; auto; rewrite H; [eapply repr_key|eapply repr_val]; eauto.
Qed.

Lemma repr_in_line l line q : nth_error L l = Some line -> q < length line ->
  in_line s l (start L l + q).
Proof.
  intros E Hq. assert (l < length L) by (apply nth_error_Some; congruence).
  exists (start L l), (start L (S l)). rewrite !repr_off by lia. rewrite (start_S L l line E). split; auto; split; auto; lia.
Qed.

Lemma in_line_lt l p : in_line s l p -> l < length L.
Proof.
  intros (b & e & _ & He & _). pose proof HR as (Ho & _). rewrite Ho in He.
  apply rd_lt in He. rewrite map_length, psum_length in He. lia.
Qed.
End Repr.

(** ** lookup *)
Lemma SSorted_nth (l : list nat) i j x y : StronglySorted lt l -> i < j ->
  nth_error l i = Some x -> nth_error l j = Some y -> x < y.
Proof.
  intros HS. revert i j; induction HS as [|a l HS IH HF]; intros [|i] [|j] Hij Ei Ej; simpl in *;
    try discriminate; try lia.
  - inversion Ei; subst. eapply Forall_forall in HF; [exact HF|]. eapply nth_error_In; eauto.
  - eapply (IH i j); auto; lia.
Qed.

Lemma SSorted_NoDup (l : list nat) : StronglySorted lt l -> NoDup l.
Proof.
  induction 1 as [|a l HS IH HF]; constructor; auto.
  intros Hin. eapply Forall_forall in HF; [|exact Hin]. lia.
Qed.

Lemma lk_In {T} k (line : list (nat * T)) v : lk k line = Some v -> In (k, v) line.
Proof.
  unfold lk. destruct (find _ line) as [[k' v']|] eqn:E; simpl; try discriminate.
  intros Hv; inversion Hv; subst. apply find_some in E as (Hin & Hk). simpl in Hk.
  apply Nat.eqb_eq in Hk. now subst.
Qed.

Lemma lk_In_iff {T} k (line : list (nat * T)) v : NoDup (map fst line) ->
  (lk k line = Some v <-> In (k, v) line).
Proof.
  intros HN. split; [apply lk_In|].
  induction line as [|[k' v'] t IH]; simpl; [tauto|].
  simpl in HN. inversion HN; subst. unfold lk. simpl.
  intros [Heq|Hin].
  - inversion Heq; subst. now rewrite Nat.eqb_refl.
  - destruct (Nat.eqb_spec k' k) as [->|].
    + exfalso. apply H1. apply in_map_iff. exists (k, v). auto.
    + now apply IH.
Qed.

Lemma lk_None {T} k (line : list (nat * T)) : ~ In k (map fst line) -> lk k line = None.
Proof.
  intros H. destruct (lk k line) as [v|] eqn:E; auto. exfalso; apply H.
  apply lk_In in E. apply in_map_iff. exists (k, v); auto.
Qed.

Lemma lk_cons {T} k k' (v : T) t : lk k ((k', v) :: t) = if k' =? k then Some v else lk k t.
Proof. unfold lk. simpl. now destruct (k' =? k). Qed.

Lemma lk_app {T} k (a b : list (nat * T)) : lk k (a ++ b) = match lk k a with Some v => Some v | None => lk k b end.
Proof.
  induction a as [|[k' v'] t IH]; simpl; [reflexivity|]. rewrite !lk_cons, IH. now destruct (k' =? k).
Qed.

(** ** arrays <-> lines *)
Definition denotes {T} (s : sparse T) (L : list (list (nat * T))) (f : nat -> nat -> option T) : Prop :=
  forall i j, i < s_rows s -> j < s_cols s ->
    f i j = lk (key_of s i j) (nth (line_of s i j) L []).

Lemma line_of_lt {T} (s : sparse T) i j : i < s_rows s -> j < s_cols s -> line_of s i j < s_minor s.
Proof. unfold line_of, s_minor. destruct (s_o s); auto. Qed.
Lemma key_of_lt {T} (s : sparse T) i j : i < s_rows s -> j < s_cols s -> key_of s i j < s_major s.
Proof. unfold key_of, s_major. destruct (s_o s); auto. Qed.

Lemma repr_stored {T} (s : sparse T) L i j v : repr s L -> length L = s_minor s ->
  lines_ok (s_major s) L -> i < s_rows s -> j < s_cols s ->
  (stored s i j v <-> lk (key_of s i j) (nth (line_of s i j) L []) = Some v).
Proof.
  intros HR HL HO Hi Hj. pose proof (line_of_lt s i j Hi Hj) as Hl.
  destruct (nth_error L (line_of s i j)) as [line|] eqn:E; [|apply nth_error_None in E; lia].
  rewrite (nth_error_nth L _ [] E).
  assert (Hok : line_ok (s_major s) line).
  { eapply Forall_forall in HO; [exact HO|]. eapply nth_error_In; eauto. }
  rewrite lk_In_iff by (apply SSorted_NoDup; apply Hok).
  split.
  - intros (p & Hp & Hk & Hv).
    destruct (repr_read s L HR p _ Hp) as (line' & q & k' & v' & E' & -> & Eq & Ek & Ev); [lia|].
    rewrite E in E'; inversion E'; subst line'.
    rewrite Ek in Hk; inversion Hk; subst. rewrite Ev in Hv; inversion Hv; subst.
    eapply nth_error_In; eauto.
  - intros Hin. apply In_nth_error in Hin as (q & Eq).
    exists (start L (line_of s i j) + q). split; [|split].
    + eapply repr_in_line; eauto. apply nth_error_Some; congruence.
    + eapply repr_key; eauto.
    + eapply repr_val; eauto.
Qed.

Lemma repr_wf {T} (s : sparse T) L : repr s L -> length L = s_minor s ->
  lines_ok (s_major s) L -> sp_wf s.
Proof.
  intros HR HL HO. pose proof HR as (Ho & tv & tk & Hv & Hk & Ht).
  assert (Hline : forall l line, nth_error L l = Some line -> line_ok (s_major s) line).
  { intros l line E. eapply Forall_forall in HO; [exact HO|]. eapply nth_error_In; eauto. }
  split; [now rewrite Ho, map_length, psum_length, HL|].
  split; [rewrite Hk, Hv, !app_length, !map_length; lia|].
  split; [rewrite (repr_off s L HR 0) by lia; reflexivity|].
  split; [|split].
  - intros l Hl. exists (start L l), (start L (S l)).
    rewrite !(repr_off s L HR) by lia. split; auto. split; auto.
    destruct (nth_error L l) as [line|] eqn:E; [|apply nth_error_None in E; lia].
    split; [rewrite (start_S L l line E); lia|].
    rewrite Hv, app_length, map_length. pose proof (start_le L (S l)). lia.
  - intros l p Hp. destruct (repr_read s L HR p l Hp (in_line_lt s L HR l p Hp))
      as (line & q & k & v & E & -> & Eq & Ek & Ev).
    exists k, v. split; auto. split; auto.
    destruct (Hline l line E) as (_ & HF). eapply Forall_forall in HF; [exact HF|].
    apply in_map_iff. exists (k, v). split; auto. eapply nth_error_In; eauto.
  - intros l p q k k' Hp Hq Hlt Ek Ek'.
    destruct (repr_read s L HR p l Hp (in_line_lt s L HR l p Hp))
      as (line & a & k1 & v1 & E & -> & Ea & Ek1 & _).
    destruct (repr_read s L HR q l Hq (in_line_lt s L HR l q Hq))
      as (line2 & b & k2 & v2 & E2 & -> & Eb & Ek2 & _).
    rewrite E in E2; inversion E2; subst line2.
    rewrite Ek in Ek1; inversion Ek1; subst k1. rewrite Ek' in Ek2; inversion Ek2; subst k2.
    destruct (Hline l line E) as (HS & _).
    eapply (SSorted_nth (map fst line) a b); eauto; try lia.
    + now rewrite nth_error_map, Ea.
    + now rewrite nth_error_map, Eb.
Qed.

(** Construction of the lines from well-formed arrays. *)
Definition cellv {A} (b : buf A) (p : nat) : option A :=
  match nth_error b p with Some (Some v) => Some v | _ => None end.
Definition pick {T} (s : sparse T) (p : nat) : list (nat * T) :=
  match cellv (s_key s) p, cellv (s_val s) p with Some k, Some v => [(k, v)] | _, _ => [] end.
Definition mk_line {T} (s : sparse T) (l : nat) : list (nat * T) :=
  match cellv (s_off s) l, cellv (s_off s) (S l) with
  | Some b, Some e => flat_map (pick s) (seq b (e - b))
  | _, _ => []
  end.

Lemma rd_cellv {A} (b : buf A) p v : rd b p = Ok v <-> cellv b p = Some v.
Proof.
  unfold rd, cellv. destruct (nth_error b p) as [[x|]|]; split; intros H; inversion H; auto.
Qed.

Lemma flat_map_singletons {A B} (g : A -> list B) (l : list A) :
  (forall x, In x l -> exists y, g x = [y]) ->
  length (flat_map g l) = length l /\
  (forall i x, nth_error l i = Some x -> exists y, g x = [y] /\ nth_error (flat_map g l) i = Some y).
Proof.
  induction l as [|x t IH]; intros H; simpl.
  - split; auto. intros [|i] y E; discriminate.
  - destruct (H x (or_introl eq_refl)) as (y & Ey). rewrite Ey. simpl.
    destruct IH as (IH1 & IH2); [intros z Hz; apply H; now right|].
    split; [now f_equal|]. intros [|i] z E; simpl in *.
    + inversion E; subst. exists y; auto.
    + now apply IH2.
Qed.

Lemma pick_hd {T} (s : sparse T) p k v : rd (s_key s) p = Ok k -> rd (s_val s) p = Ok v ->
  pick s p = [(k, v)].
Proof. intros Hk Hv. unfold pick. apply rd_cellv in Hk, Hv. now rewrite Hk, Hv. Qed.

Lemma wf_repr {T} (s : sparse T) : sp_wf s ->
  exists L, repr s L /\ length L = s_minor s /\ lines_ok (s_major s) L.
Proof.
  intros (Hlo & Hlk & H0 & Hoff & Hin & Hsort).
  set (n := s_minor s) in *.
  (* offsets as numbers *)
  assert (Hex : exists off : nat -> nat, (forall l, l <= n -> rd (s_off s) l = Ok (off l)) /\ off 0 = 0 /\
            (forall l, l < n -> off l <= off (S l) <= length (s_val s))).
  { exists (fun l => match cellv (s_off s) l with Some x => x | None => 0 end).
    assert (Hrd : forall l, l <= n -> rd (s_off s) l = Ok (match cellv (s_off s) l with Some x => x | None => 0 end)).
    { intros l Hl. destruct (Nat.eq_dec l n) as [->|].
      - destruct (Nat.eq_dec n 0) as [E|].
        + rewrite E. rewrite H0. apply rd_cellv in H0. now rewrite H0.
        + destruct (Hoff (n - 1)) as (b & e & _ & He & _); [lia|].
          replace (S (n - 1)) with n in He by lia. rewrite He. apply rd_cellv in He. now rewrite He.
      - destruct (Hoff l) as (b & e & Hb & _); [lia|]. rewrite Hb. apply rd_cellv in Hb. now rewrite Hb. }
    split; auto. split.
    - apply rd_cellv in H0. now rewrite H0.
    - intros l Hl. destruct (Hoff l Hl) as (b & e & Hb & He & Hbe).
      apply rd_cellv in Hb, He. rewrite Hb, He. auto. }
  destruct Hex as (off & Hrd & Hoff0 & Hmono).
  exists (map (mk_line s) (seq 0 n)).
  assert (Hmk : forall l, l < n -> mk_line s l = flat_map (pick s) (seq (off l) (off (S l) - off l))).
  { intros l Hl. unfold mk_line. pose proof (Hrd l) as E1. pose proof (Hrd (S l)) as E2.
    apply rd_cellv in E1; [|lia]. apply rd_cellv in E2; [|lia]. now rewrite E1, E2. }
  assert (Hinl : forall l p, l < n -> off l <= p < off (S l) -> in_line s l p).
  { intros l p Hl Hp. exists (off l), (off (S l)). rewrite !Hrd by lia. auto. }
  assert (Hpick : forall l p, l < n -> off l <= p < off (S l) -> exists k v, pick s p = [(k, v)] /\
             rd (s_key s) p = Ok k /\ rd (s_val s) p = Ok v /\ k < s_major s).
  { intros l p Hl Hp. destruct (Hin l p (Hinl l p Hl Hp)) as (k & v & Hk & Hv & Hlt).
    exists k, v. split; [now apply pick_hd|auto]. }
  assert (Hmklen : forall l, l < n -> length (mk_line s l) = off (S l) - off l).
  { intros l Hl. rewrite Hmk by auto.
    destruct (flat_map_singletons (pick s) (seq (off l) (off (S l) - off l))) as (E & _).
    - intros p Hp. apply in_seq in Hp. destruct (Hpick l p Hl) as (k & v & -> & _); [lia|]. eauto.
    - now rewrite E, seq_length. }
  assert (Hnth : forall l q, l < n -> q < off (S l) - off l -> exists k v,
             nth_error (mk_line s l) q = Some (k, v) /\ rd (s_key s) (off l + q) = Ok k /\
             rd (s_val s) (off l + q) = Ok v /\ k < s_major s).
  { intros l q Hl Hq. rewrite Hmk by auto.
    destruct (flat_map_singletons (pick s) (seq (off l) (off (S l) - off l))) as (_ & E).
    - intros p Hp. apply in_seq in Hp. destruct (Hpick l p Hl) as (k & v & -> & _); [lia|]. eauto.
    - destruct (E q (off l + q)) as (y & E1 & E2).
      + rewrite nth_error_seq. destruct (Nat.ltb_spec q (off (S l) - off l)); [reflexivity|lia].
      + destruct (Hpick l (off l + q) Hl) as (k & v & E3 & Hk & Hv & Hlt); [lia|].
        rewrite E1 in E3. inversion E3; subst. exists k, v; auto. }
  (* psum and concat *)
  assert (Hps : forall m l0, l0 + m = n ->
     psum (off l0) (map (mk_line s) (seq l0 m)) = map off (seq l0 (S m))).
  { induction m as [|m IH]; intros l0 Hm; [reflexivity|].
    cbn [seq map psum]. rewrite Hmklen by lia.
    pose proof (Hmono l0 ltac:(lia)). replace (off l0 + (off (S l0) - off l0)) with (off (S l0)) by lia.
    rewrite IH by lia. reflexivity. }
  assert (Hmono2 : forall l, l <= n -> off l <= off n).
  { intros l Hl. remember (n - l) as d. revert l Hl Heqd. induction d as [|d IH]; intros l Hl Hd.
    - replace l with n by lia; lia.
    - pose proof (Hmono l ltac:(lia)). specialize (IH (S l)). lia. }
  assert (Hnn : off n <= length (s_val s)).
  { destruct (Nat.eq_dec n 0) as [E|]; [rewrite E, Hoff0; lia|]. pose proof (Hmono (n - 1) ltac:(lia)).
    replace (S (n - 1)) with n in H by lia. lia. }
  assert (Hcat : forall m l0, l0 + m = n ->
     length (concat (map (mk_line s) (seq l0 m))) = off n - off l0 /\
     forall p, off l0 <= p < off n -> exists k v,
       nth_error (concat (map (mk_line s) (seq l0 m))) (p - off l0) = Some (k, v) /\
       rd (s_key s) p = Ok k /\ rd (s_val s) p = Ok v).
  { induction m as [|m IH]; intros l0 Hm.
    - replace l0 with n by lia. simpl. split; [lia|]. intros p Hp. lia.
    - cbn [seq map concat]. destruct (IH (S l0)) as (IH1 & IH2); [lia|].
      pose proof (Hmono l0 ltac:(lia)). pose proof (Hmono2 (S l0) ltac:(lia)).
      split; [rewrite app_length, IH1, Hmklen by lia; lia|].
      intros p Hp. destruct (Nat.lt_ge_cases p (off (S l0))) as [Hlt|Hge].
      + destruct (Hnth l0 (p - off l0)) as (k & v & E & Hk & Hv & _); [lia|lia|].
        replace (off l0 + (p - off l0)) with p in Hk, Hv by lia.
        exists k, v. rewrite nth_error_app1 by (rewrite Hmklen; lia). auto.
      + destruct (IH2 p) as (k & v & E & Hk & Hv); [lia|]. exists k, v.
        rewrite nth_error_app2 by (rewrite Hmklen; lia). rewrite Hmklen by lia.
        replace (p - off l0 - (off (S l0) - off l0)) with (p - off (S l0)) by lia. auto. }
  destruct (Hcat n 0) as (Hcl & Hcn); [lia|]. rewrite Hoff0 in Hcl, Hcn.
  split; [|split].
  - split.
    + apply nth_error_ext. intros i. rewrite nth_error_map.
      pose proof (Hps n 0 ltac:(lia)) as HP. rewrite Hoff0 in HP. rewrite HP. clear HP.
      rewrite nth_error_map, nth_error_seq.
      destruct (Nat.ltb_spec i (S n)).
      * cbn [option_map]. rewrite Nat.add_0_l. pose proof (Hrd i ltac:(lia)) as E. unfold rd in E.
        destruct (nth_error (s_off s) i) as [[x|]|] eqn:En; try discriminate. inversion E; subst; auto.
      * simpl. apply nth_error_None. lia.
    + exists (skipn (off n) (s_val s)), (skipn (off n) (s_key s)).
      split; [|split].
      * apply nth_error_ext. intros i. destruct (Nat.lt_ge_cases i (off n)) as [Hi|Hi].
        -- rewrite nth_error_app1 by (rewrite map_length; lia). rewrite nth_error_map.
           destruct (Hcn i) as (k & v & E & Hk & Hv); [lia|]. rewrite Nat.sub_0_r in E. rewrite E. simpl.
           unfold rd in Hv. destruct (nth_error (s_val s) i) as [[x|]|]; try discriminate. now inversion Hv.
        -- rewrite nth_error_app2 by (rewrite map_length; lia). rewrite map_length, Hcl.
           rewrite <- (firstn_skipn (off n) (s_val s)) at 1.
           rewrite nth_error_app2 by (rewrite firstn_length; lia).
           f_equal. rewrite firstn_length. lia.
      * apply nth_error_ext. intros i. destruct (Nat.lt_ge_cases i (off n)) as [Hi|Hi].
        -- rewrite nth_error_app1 by (rewrite map_length; lia). rewrite nth_error_map.
           destruct (Hcn i) as (k & v & E & Hk & Hv); [lia|]. rewrite Nat.sub_0_r in E. rewrite E. simpl.
           unfold rd in Hk. destruct (nth_error (s_key s) i) as [[x|]|]; try discriminate. now inversion Hk.
        -- rewrite nth_error_app2 by (rewrite map_length; lia). rewrite map_length, Hcl.
           rewrite <- (firstn_skipn (off n) (s_key s)) at 1.
           rewrite nth_error_app2 by (rewrite firstn_length; lia).
           f_equal. rewrite firstn_length. lia.
      * rewrite !skipn_length. lia.
  - now rewrite map_length, seq_length.
  - apply Forall_forall. intros line Hl. apply in_map_iff in Hl as (l & <- & Hl). apply in_seq in Hl.
    assert (Hl' : l < n) by lia. clear Hl.
    assert (Hsl : forall i j x y, i < j -> nth_error (map fst (mk_line s l)) i = Some x ->
                  nth_error (map fst (mk_line s l)) j = Some y -> x < y).
    { intros i j x y Hij Ei Ej.
      assert (Hj : j < length (map fst (mk_line s l))) by (apply nth_error_Some; congruence).
      rewrite map_length, Hmklen in Hj by auto.
      destruct (Hnth l i Hl') as (k & v & E1 & Hk1 & _); [lia|].
      destruct (Hnth l j Hl') as (k2 & v2 & E2 & Hk2 & _); [lia|].
      rewrite nth_error_map, E1 in Ei. rewrite nth_error_map, E2 in Ej. inversion Ei; inversion Ej; subst.
      eapply (Hsort l (off l + i) (off l + j)); eauto; try lia; apply Hinl; auto; lia. }
    split.
    + clear -Hsl. induction (map fst (mk_line s l)) as [|a t IH]; constructor.
      * apply IH. intros i j x y Hij Ei Ej. eapply (Hsl (S i) (S j)); eauto. lia.
      * apply Forall_forall. intros y Hy. apply In_nth_error in Hy as (j & Ej).
        eapply (Hsl 0 (S j)); eauto; try lia.
    + apply Forall_forall. intros k Hk. apply In_nth_error in Hk as (q & Eq).
      assert (Hq : q < length (map fst (mk_line s l))) by (apply nth_error_Some; congruence).
      rewrite map_length, Hmklen in Hq by auto.
      destruct (Hnth l q Hl' Hq) as (k2 & v2 & E2 & _ & _ & Hlt). rewrite nth_error_map, E2 in Eq.
      inversion Eq; subst; auto.
Qed.

(** The two views of a sparse matrix. *)
Lemma sp_mat_lines {T} (s : sparse T) r c f :
  sp_mat s r c f <->
  s_rows s = r /\ s_cols s = c /\ s_full s = r * c /\
  exists L, repr s L /\ length L = s_minor s /\ lines_ok (s_major s) L /\ denotes s L f.
Proof.
  split.
  - intros (Hwf & Hr & Hc & Hfu & Hf). split; auto. split; auto. split; auto.
    destruct (wf_repr s Hwf) as (L & HR & HL & HO). exists L. repeat (split; auto).
    intros i j Hi Hj.
    pose proof (fun v => repr_stored s L i j v HR HL HO Hi Hj) as Hs.
    rewrite Hr in Hi. rewrite Hc in Hj. specialize (Hf i j Hi Hj).
    destruct (lk _ _) as [v|] eqn:E.
    + apply Hf. apply Hs. reflexivity.
    + destruct (f i j) as [v|] eqn:Ef; auto. pose proof (proj1 (Hf v) eq_refl) as H.
      apply Hs in H. discriminate.
  - intros (Hr & Hc & Hfu & L & HR & HL & HO & Hd).
    split; [eapply repr_wf; eauto|]. split; auto. split; auto. split; auto.
    intros i j Hi Hj v. rewrite <- Hr in Hi. rewrite <- Hc in Hj.
    rewrite (repr_stored s L i j v HR HL HO Hi Hj). rewrite (Hd i j Hi Hj). tauto.
Qed.
