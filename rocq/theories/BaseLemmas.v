(** Facts about the vocabulary of Base.v (no model content). *)
From Verif Require Export Base.

Lemma upd_length {A} (l : list A) i v : length (upd l i v) = length l.
Proof. revert i; induction l as [|h t IH]; intros [|k]; simpl; auto. Qed.

Lemma nth_error_upd_eq {A} (l : list A) i v :
  i < length l -> nth_error (upd l i v) i = Some v.
Proof.
  revert i; induction l as [|h t IH]; intros [|k] Hi; simpl in *; try lia; auto.
  apply IH; lia.
Qed.

Lemma nth_error_upd_ne {A} (l : list A) i j v :
  i <> j -> nth_error (upd l i v) j = nth_error l j.
Proof.
  revert i j; induction l as [|h t IH]; intros [|k] [|m] Hne; simpl; auto; try lia.
  all: try (apply IH; lia).
Qed.

Lemma nth_error_upd {A} (l : list A) i j v :
  nth_error (upd l i v) j =
  if (i =? j) && (i <? length l) then Some v else nth_error l j.
Proof.
  destruct (Nat.eqb_spec i j) as [->|Hne]; simpl.
  - destruct (Nat.ltb_spec j (length l)) as [Hlt|Hge].
    + now apply nth_error_upd_eq.
    + assert (Hn : nth_error l j = None) by now apply nth_error_None.
      rewrite Hn. apply nth_error_None. now rewrite upd_length.
  - now apply nth_error_upd_ne.
Qed.

Lemma upd_out {A} (l : list A) i v : length l <= i -> upd l i v = l.
Proof.
  revert i; induction l as [|h t IH]; intros [|k] Hi; simpl in *; auto; try lia.
  f_equal; apply IH; lia.
Qed.

Lemma nth_error_ext {A} (l1 l2 : list A) :
  (forall i, nth_error l1 i = nth_error l2 i) -> l1 = l2.
Proof.
  revert l2; induction l1 as [|h t IH]; intros [|h2 t2] H; auto.
  - specialize (H 0); discriminate.
  - specialize (H 0); discriminate.
  - f_equal; [specialize (H 0); now inversion H|].
    apply IH; intros i; exact (H (S i)).
Qed.

Lemma upd_upd_same {A} (l : list A) i v w : upd (upd l i v) i w = upd l i w.
Proof.
  revert i; induction l as [|h t IH]; intros [|k]; simpl; auto. now rewrite IH.
Qed.

Lemma nth_error_repeat {A} (v : A) n i : i < n -> nth_error (repeat v n) i = Some v.
Proof.
  revert i; induction n as [|n IH]; intros [|k] Hi; simpl; try lia; auto.
  apply IH; lia.
Qed.

Lemma nth_error_repeat_None {A} (v : A) n i : n <= i -> nth_error (repeat v n) i = None.
Proof. intros Hi; apply nth_error_None; now rewrite repeat_length. Qed.

Lemma nth_error_map_eq {A B} (f : A -> B) l i :
  nth_error (map f l) i = option_map f (nth_error l i).
Proof. revert i; induction l as [|h t IH]; intros [|k]; simpl; auto. Qed.

Lemma nth_error_seq s n i :
  nth_error (seq s n) i = if i <? n then Some (s + i) else None.
Proof.
  revert s i; induction n as [|n IH]; intros s [|k]; try reflexivity.
  - cbn [seq nth_error]. change (0 <? S n) with true; cbn iota. f_equal; lia.
  - cbn [seq nth_error]. rewrite IH.
    destruct (Nat.ltb_spec k n), (Nat.ltb_spec (S k) (S n)); auto; try lia.
    f_equal; lia.
Qed.

(** * rd / wr *)
Section RdWr.
  Context {T : Type}.
  Implicit Types (b : buf T).

  Lemma alloc_length n : length (@alloc T n) = n.
  Proof. apply repeat_length. Qed.

  Lemma rd_ok b i v : rd b i = Ok v <-> nth_error b i = Some (Some v).
  Proof.
    unfold rd; destruct (nth_error b i) as [[w|]|]; split; intros H; try discriminate.
    - inversion H; subst; auto.
    - inversion H; subst; auto.
  Qed.

  Lemma wr_ok b i v : i < length b -> wr b i v = Ok (upd b i (Some v)).
  Proof. intros Hi; unfold wr. destruct (Nat.ltb_spec i (length b)); auto; lia. Qed.

  Lemma wr_inv b i v b' : wr b i v = Ok b' -> i < length b /\ b' = upd b i (Some v).
  Proof.
    unfold wr; destruct (Nat.ltb_spec i (length b)); intros H1; inversion H1; auto.
  Qed.

  Lemma wrc_ok b i c : i < length b -> wrc b i c = Ok (upd b i c).
  Proof. intros Hi; unfold wrc. destruct (Nat.ltb_spec i (length b)); auto; lia. Qed.

  Lemma rdc_ok b i c : rdc b i = Ok c <-> nth_error b i = Some c.
  Proof.
    unfold rdc; destruct (nth_error b i) as [d|]; split; intros H; try discriminate;
      inversion H; subst; auto.
  Qed.

  Lemma rd_upd_eq b i v : i < length b -> rd (upd b i (Some v)) i = Ok v.
  Proof. intros Hi. apply rd_ok. now apply nth_error_upd_eq. Qed.

  Lemma rd_upd_ne b i j c : i <> j -> rd (upd b i c) j = rd b j.
  Proof. intros Hne. unfold rd. now rewrite nth_error_upd_ne. Qed.

  Lemma rd_lt b i v : rd b i = Ok v -> i < length b.
  Proof. intros H; apply rd_ok in H. apply nth_error_Some. now rewrite H. Qed.
End RdWr.

(** * Loops *)
Lemma bind_ok {A B} (x : res A) (f : A -> res B) b :
  bind x f = Ok b <-> exists a, x = Ok a /\ f a = Ok b.
Proof.
  destruct x as [a| | |u|]; simpl; split; intros H; try discriminate; eauto.
  - destruct H as (a' & Ha & Hf); inversion Ha; subst; auto.
  - destruct H as (? & ? & ?); discriminate.
  - destruct H as (? & ? & ?); discriminate.
  - destruct H as (? & ? & ?); discriminate.
  - destruct H as (? & ? & ?); discriminate.
Qed.

Lemma bind_assoc {A B C} (x : res A) (f : A -> res B) (g : B -> res C) :
  bind (bind x f) g = bind x (fun a => bind (f a) g).
Proof. destruct x; reflexivity. Qed.

Lemma bind_ret {A} (x : res A) : bind x (fun a => Ok a) = x.
Proof. destruct x; reflexivity. Qed.

Lemma bind_ext {A B} (x : res A) (f g : A -> res B) :
  (forall a, x = Ok a -> f a = g a) -> bind x f = bind x g.
Proof. destruct x; simpl; auto. Qed.

Lemma foldM_app {X S} (f : X -> S -> res S) l1 l2 s :
  foldM f (l1 ++ l2) s = bind (foldM f l1 s) (foldM f l2).
Proof.
  revert s; induction l1 as [|x t IH]; intros s; simpl; auto.
  destruct (f x s); simpl; auto.
Qed.

Lemma foldM_ext {X S} (f g : X -> S -> res S) l s :
  (forall x s, In x l -> f x s = g x s) -> foldM f l s = foldM g l s.
Proof.
  revert s; induction l as [|x t IH]; intros s H; simpl; auto.
  rewrite H by now left. destruct (g x s); simpl; auto.
  apply IH; intros y s' Hy; apply H; now right.
Qed.

Lemma foldM_map {X Y S} (h : Y -> X) (f : X -> S -> res S) l s :
  foldM f (map h l) s = foldM (fun y => f (h y)) l s.
Proof.
  revert s; induction l as [|x t IH]; intros s; simpl; auto.
  destruct (f (h x) s); simpl; auto.
Qed.

Lemma foldM_pure {X S} (f : X -> S -> res S) (g : S -> X -> S) l s :
  (forall x s, In x l -> f x s = Ok (g s x)) -> foldM f l s = Ok (fold_left g l s).
Proof.
  revert s; induction l as [|x t IH]; intros s H; simpl; auto.
  rewrite H by now left. simpl. apply IH; intros y s' Hy; apply H; now right.
Qed.

(** Total-correctness loop rule: invariant indexed by the number of completed
    iterations. *)
Lemma foldM_inv {X S} (f : X -> S -> res S) (I : nat -> S -> Prop) l s :
  I 0 s ->
  (forall k x s, nth_error l k = Some x -> I k s ->
     exists s', f x s = Ok s' /\ I (Datatypes.S k) s') ->
  exists s', foldM f l s = Ok s' /\ I (length l) s'.
Proof.
  revert I s; induction l as [|x t IH]; intros I s H0 Hstep; simpl; eauto.
  destruct (Hstep 0 x s eq_refl H0) as (s1 & E1 & H1). rewrite E1; simpl.
  apply (IH (fun k => I (Datatypes.S k)) s1 H1).
  intros k y s2 Hk HI. apply (Hstep (Datatypes.S k) y s2 Hk HI).
Qed.

Lemma forM_inv {S} (f : nat -> S -> res S) (I : nat -> S -> Prop) n s :
  I 0 s ->
  (forall k s, k < n -> I k s -> exists s', f k s = Ok s' /\ I (Datatypes.S k) s') ->
  exists s', forM n f s = Ok s' /\ I n s'.
Proof.
  intros H0 Hstep. unfold forM.
  destruct (foldM_inv f I (seq 0 n) s H0) as (s' & E & HI).
  - intros k x s1 Hk HI1. rewrite nth_error_seq in Hk.
    destruct (Nat.ltb_spec k n); inversion Hk; subst; simpl. now apply Hstep.
  - rewrite seq_length in HI; eauto.
Qed.

Lemma forM_S {S} n (f : nat -> S -> res S) s :
  forM (Datatypes.S n) f s = bind (forM n f s) (f n).
Proof.
  unfold forM. rewrite seq_S, foldM_app; simpl.
  apply bind_ext; intros a _. apply bind_ret.
Qed.

(** Inductive-step invariant for every (not necessarily successful) loop. *)
Lemma foldM_inv_ok {X S} (f : X -> S -> res S) (I : S -> Prop) l s s' :
  I s -> (forall x s s', In x l -> I s -> f x s = Ok s' -> I s') ->
  foldM f l s = Ok s' -> I s'.
Proof.
  revert s; induction l as [|x t IH]; intros s H0 Hstep E; simpl in E.
  - inversion E; subst; auto.
  - apply bind_ok in E as (s1 & E1 & E2).
    eapply IH; [| |exact E2].
    + eapply Hstep; eauto; now left.
    + intros y s2 s3 Hy; apply Hstep; now right.
Qed.

Lemma mapM_ok {A B} (f : A -> res B) (g : A -> B) l :
  (forall x, In x l -> f x = Ok (g x)) -> mapM f l = Ok (map g l).
Proof.
  induction l as [|x t IH]; intros H; simpl; auto.
  rewrite H by now left. simpl. rewrite IH; auto. intros y Hy; apply H; now right.
Qed.

Lemma mapM_length {A B} (f : A -> res B) l r : mapM f l = Ok r -> length r = length l.
Proof.
  revert r; induction l as [|x t IH]; intros r E; simpl in E.
  - inversion E; auto.
  - apply bind_ok in E as (y & _ & E). apply bind_ok in E as (ys & E1 & E2).
    inversion E2; subst; simpl; f_equal; auto.
Qed.

#[global] Instance Z_RingLaws : RingLaws Z.
Proof.
  constructor; cbn [s0 s1 sadd ssub smul sopp s_nz Z_Scalar]; intros; try ring; try lia.
Qed.
