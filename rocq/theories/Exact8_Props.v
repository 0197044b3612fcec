(** C35, C36: the complete output of a disciplined program, against an interpreter
    that has no caches at all. *)
From Verif Require Import Base BaseLemmas Dyn_Model Check_Model Check_Spec Check_Props.

Section Plain.
Context {D C N : Type} (norm_of : C -> N) (count_of : (D -> bool) -> C -> nat) (moved : C -> C)
  (ok : checker D -> D -> bool).

(** Variables hold contents, nothing else. *)
Definition put (e : nat -> C) (v : nat) (c : C) : nat -> C := fun w => if w =? v then c else e w.

(** Every call is answered from the present contents. *)
Fixpoint answers (e : nat -> C) (l : list (op D C)) : list (out D C N) :=
  match l with
  | [] => []
  | New v c :: r => answers (put e v c) r
  | Modify v f :: r => answers (put e v (f (e v))) r
  | Copy v s :: r => answers (put e v (e s)) r
  | MoveNew v s :: r => answers (put (put e s (moved (e s))) v (e s)) r
  | MoveAssign v s :: r => answers (put (put e s (moved (e s))) v (e s)) r
  | Swap v w :: r => answers (put (put e v (e w)) w (e v)) r
  | GetNorm v :: r => ONorm (norm_of (e v)) (e v) :: answers e r
  | GetCount v k :: r => OCount (count_of (ok k) (e v)) k (e v) :: answers e r
  | Reset _ :: r => answers e r
  end.

Lemma answers_ext l : forall e e', (forall v, e v = e' v) -> answers e l = answers e' l.
Proof.
  induction l as [|x l IH]; intros e e' H; [reflexivity|].
  destruct x; cbn [answers]; rewrite ?H; try (f_equal; now apply IH); apply IH; intros ?; unfold put;
    repeat match goal with |- context [if ?b then _ else _] => destruct b end; auto.
Qed.
End Plain.

(** The outputs of [run] with the reported numbers forgotten. *)
Definition asked {D C N} (o : out D C N) : C * option (checker D) :=
  match o with ONorm _ c => (c, None) | OCount _ k c => (c, Some k) end.

Lemma run_contents {F D} (ar : arith F D) {C N} (norm_of : C -> N) count_of moved (l : list (op D C)) :
  forall e e' o, run ar norm_of count_of moved e l = Ok (e', o) ->
    map asked o = map asked (answers norm_of count_of moved (ck_ok ar) (fun v => o_c (e v)) l).
Proof.
  induction l as [|x l IH]; intros e e' o E.
  - cbn in E. injection E as <- <-. reflexivity.
  - cbn [run] in E. apply bind_ok in E as ([e1 o1] & E1 & E). apply bind_ok in E as ([e2 o2] & E2 & E). injection E as <- <-.
    specialize (IH _ _ _ E2). rewrite map_app, IH.
    assert (Ext : forall g, (forall v, o_c (e1 v) = g v) ->
      answers norm_of count_of moved (ck_ok ar) (fun v => o_c (e1 v)) l = answers norm_of count_of moved (ck_ok ar) g l).
    { intros g Hg. now apply answers_ext. }
    destruct x; cbn [step] in E1; cbn [answers].
    + injection E1 as <- <-. cbn [map app]. f_equal. apply Ext. intros z. unfold eset, put. now destruct (_ =? _).
    + injection E1 as <- <-. cbn [map app]. f_equal. apply Ext. intros z. unfold eset, put. now destruct (_ =? _).
    + injection E1 as <- <-. cbn [map app]. f_equal. apply Ext. intros z. unfold eset, put. now destruct (_ =? _).
    + injection E1 as <- <-. cbn [map app]. f_equal. apply Ext. intros z. unfold eset, put. now repeat destruct (_ =? _).
    + injection E1 as <- <-. cbn [map app]. f_equal. apply Ext. intros z. unfold eset, put. now repeat destruct (_ =? _).
    + injection E1 as <- <-. cbn [map app]. f_equal. apply Ext. intros z. unfold eset, put. now repeat destruct (_ =? _).
    + destruct (o_getNorm norm_of (e v)) as [ob n] eqn:G. injection E1 as <- <-. cbn [map app asked]. f_equal. f_equal. apply Ext.
      intros z. unfold eset. destruct (Nat.eqb_spec z v) as [-> |]; [|reflexivity].
      unfold o_getNorm in G. destruct (o_norm (e v)); injection G as <- _; reflexivity.
    + apply bind_ok in E1 as ([ob n] & G & E1). injection E1 as <- <-. cbn [map app asked]. f_equal. f_equal. apply Ext.
      intros z. unfold eset. destruct (Nat.eqb_spec z v) as [-> |]; [|reflexivity].
      unfold o_getCount in G. apply bind_ok in G as ([?|] & _ & G); injection G as <- _; reflexivity.
    + injection E1 as <- <-. cbn [map app]. f_equal. apply Ext. intros z. unfold eset. destruct (Nat.eqb_spec z v) as [-> |]; reflexivity.
Qed.

Lemma answers_right {D C N} (norm_of : C -> N) (count_of : (D -> bool) -> C -> nat) moved ok (l : list (op D C)) :
  forall e x, In x (answers norm_of count_of moved ok e l) ->
    match x with ONorm n c => n = norm_of c | OCount n k c => n = count_of (ok k) c end.
Proof.
  induction l as [|y l IH]; intros e x H; [contradiction|].
  destruct y; cbn [answers] in H; try exact (IH _ _ H); (destruct H as [<- |H]; [reflexivity|exact (IH _ _ H)]).
Qed.

(** A program disciplined for both caches prints exactly what the interpreter
    without caches prints, call by call. *)
Theorem C35_complete_output :
  forall (F D : Type) (ar : arith F D), linear ar ->
  forall (C N : Type) (norm_of : C -> N) count_of moved (empty : C) (l : list (op D C)),
    (forall p q c, (forall x, p x = q x) -> count_of p c = count_of q c) ->
    disciplined asked_norm (fun _ => false) l -> disciplined asked_count (fun _ => false) l -> Forall listed_op l ->
    exists e, run ar norm_of count_of moved (start empty) l =
      Ok (e, answers norm_of count_of moved (ck_ok ar) (fun _ => empty) l).
Proof.
  intros F D ar Lin C N norm_of count_of moved empty l Hext Dn Dc Hl.
  destruct (C36_count_of_current_contents F D ar Lin C N norm_of count_of moved empty l Hext Dc Hl) as (e & o & E & Hc).
  pose proof (C35_norm_of_current_contents F D ar C N norm_of count_of moved empty l e o Dn E) as Hn.
  exists e. rewrite E. f_equal. f_equal.
  pose proof (run_contents ar norm_of count_of moved l _ _ _ E) as Hm. cbn [start o_new o_c] in Hm.
  change (fun v => o_c (start empty v)) with (fun _ : nat => empty) in Hm.
  pose proof (answers_right norm_of count_of moved (ck_ok ar) l (fun _ => empty)) as Ha.
  revert Hm Ha. generalize (answers norm_of count_of moved (ck_ok ar) (fun _ => empty) l). clear E.
  induction o as [|x o IH]; intros [|y a] Hm Ha; cbn in Hm; try discriminate; [reflexivity|].
  injection Hm as Hx Hm. f_equal.
  - pose proof (Ha y (or_introl eq_refl)) as Hy. destruct x, y; cbn in Hx; try discriminate.
    + injection Hx as ->. rewrite (Hn _ _ (or_introl eq_refl)). now rewrite Hy.
    + injection Hx as -> ->. rewrite (Hc _ _ _ (or_introl eq_refl)). now rewrite Hy.
  - apply IH; auto.
    + intros n k c H. apply Hc. now right.
    + intros n c H. apply Hn. now right.
    + intros z Hz. apply Ha. now right.
Qed.
Print Assumptions C35_complete_output.

Example C35_complete_output_nonvacuous :
  let p := [New 0 [1; -2]%Z; GetNorm 0; GetCount 0 (zgt 1); Copy 1 0; GetNorm 1; New 2 [4]%Z; Modify 2 (fun c => 3%Z :: c);
            MoveNew 3 2; GetNorm 3; GetCount 3 (zgt 3)] : list (op Z (list Z)) in
  disciplined asked_norm (fun _ => false) p /\ disciplined asked_count (fun _ => false) p /\ Forall listed_op p /\
  exists e, zrun p = Ok (e, [ONorm 3 [1; -2]; OCount 1 (zgt 1) [1; -2]; ONorm 3 [1; -2]; ONorm 7 [3; 4]; OCount 1 (zgt 3) [3; 4]]%Z).
Proof.
  cbv zeta. split; [cbn; intuition discriminate|]. split; [cbn; intuition discriminate|].
  split; [repeat constructor|]. eexists. vm_compute. reflexivity.
Qed.
