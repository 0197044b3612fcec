(** C22: sums with zero matrices of any dimensions.  C58: what a printed matrix of a known
    or run-time type shows.  C69: the text a timer leaves. *)
From Coq Require Import String Ascii List Lia.
From Verif Require Import Base BaseLemmas Dense_Model Dense_Spec Dense_Proofs Dense2_Proofs Sparse_Model Sparse_Spec Mult_Model
  Dyn_Model Dyn_Spec Dyn2_Proofs Exact9_Props Text_Model Text_Spec Text_Proofs Dense_Props Sparse_Props Dyn_Props Text_Props Stream_Model Stream_Props.
Import ListNotations.
#[local] Open Scope string_scope.
#[local] Open Scope list_scope.

(** C22.  Matrices of every kind, with any dimensions: the sum or difference with a zero
    matrix is the other operand, of two zero matrices the first one; an update with one
    changes nothing, and only a debug build looks at the dimensions; a zero matrix
    cannot be updated by another kind. *)
Theorem C22_zero_of_any_size :
  forall (F D : Type) (ar : arith F D) o dbg (z z' : zmat) (l : leaf F D),
    bin_leaf ar o dbg (LZ z) (LZ z') = Ok (LZ z) /\
    bin_leaf ar o dbg l (LZ z) = Ok l /\
    (leaf_ty l <> TZ -> bin_leaf ar o dbg (LZ z) l = Ok l /\ asg_leaf ar o dbg (LZ z) l = Throw) /\
    (asg_leaf ar o false l (LZ z) = Ok l) /\
    asg_leaf ar o true l (LZ z) =
      if ((l_rows l =? z_rows z) && (l_cols l =? z_cols z))%nat then Ok l else AssertFail.
Proof.
  intros F D ar o dbg z z' l. split; [reflexivity|]. split; [now destruct l|]. split; [|split].
  - intros H. destruct l; [contradiction H; reflexivity|..]; split; reflexivity.
  - destruct l as [[]|[]|[]|[]|[]]; reflexivity.
  - destruct l as [x|x|x|x|x]; cbn [asg_leaf]; unfold mz_assign_op, cassert; cbn [l_rows l_cols];
      match goal with |- context [(?a =? z_rows z)%nat] => destruct (a =? z_rows z)%nat end; try reflexivity;
      match goal with |- context [(?a =? z_cols z)%nat] => destruct (a =? z_cols z)%nat end; reflexivity.
Qed.
Print Assumptions C22_zero_of_any_size.
Example C22_any_size_nonvacuous :
  bin_leaf zar Minus true (LZ (z_new 5 5)) (LDd demoC) = Ok (LDd demoC) /\
  bin_leaf zar Plus true (LZ (z_new 5 5)) (LZ (z_new 2 3)) = Ok (LZ (z_new 5 5)) /\
  asg_leaf zar Plus true (LDd demoC) (LZ (z_new 2 4)) = AssertFail /\ asg_leaf zar Plus true (LDd demoC) (LZ (z_new 2 3)) = Ok (LDd demoC).
Proof. repeat split. Qed.

(** C58.  A zero matrix is printed as its name, its size and its dimensions. *)
Theorem C58_printed_zero :
  forall (F D : Type) (showF : F -> string) (showD : D -> string) full z,
    exists t, print_leaf showF showD full (LZ z) = Ok t /\
      lines_of t = ["Matrix<Zero>"; ("Size = " ++ num (z_full z))%string; ("Dimension = " ++ num (z_rows z) ++ " x " ++ num (z_cols z))%string].
Proof.
  intros F D showF showD full z. eexists. split; [reflexivity|]. unfold print_zero, lines_of.
  rewrite lf_line by (cbn; repeat split; discriminate). f_equal.
  replace ("Size = " ++ num (z_full z) ++ nl ++ "Dimension = " ++ num (z_rows z) ++ " x " ++ num (z_cols z) ++ nl)%string
    with (("Size = " ++ num (z_full z)) ++ nl ++ ("Dimension = " ++ num (z_rows z) ++ " x " ++ num (z_cols z)) ++ nl ++ "")%string
    by now rewrite ?app_s_assoc, ?app_s_nil.
  rewrite lf_line by (rewrite free_app; split; [cbn; repeat split; discriminate|apply num_word]). f_equal.
  rewrite lf_line by (rewrite !free_app; repeat split; try discriminate; apply num_word). reflexivity.
Qed.
Print Assumptions C58_printed_zero.

(** The name of each type. *)
Definition name_of (t : lty) : string :=
  match t with
  | TZ => "Matrix<Zero>"
  | TS EF => "Matrix<Sparse,float>" | TS ED => "Matrix<Sparse,double>"
  | TD EF => "Matrix<Dense,float>" | TD ED => "Matrix<Dense,double>"
  end.
(** The dense matrices that are printed with their names. *)
Definition named (full : bool) {F D} (l : leaf F D) : Prop :=
  match l with
  | LZ _ => True
  | LSf s => s_full s <= 100 | LSd s => s_full s <= 100
  | LDf d => full = true /\ d_rows d <= 100 /\ d_cols d <= 100
  | LDd d => full = true /\ d_rows d <= 100 /\ d_cols d <= 100
  end.
(** The first line of what is printed is the name of the type. *)
Theorem C58_name_first :
  forall (F D : Type) (showF : F -> string) (showD : D -> string) full l t,
    named full l -> print_leaf showF showD full l = Ok t -> exists rest, lines_of t = name_of (leaf_ty l) :: rest.
Proof.
  intros F D showF showD full l t HN E.
  assert (FN : free_of "010" (name_of (leaf_ty l))) by (destruct l; cbn; repeat split; discriminate).
  assert (HS : forall U (show : U -> string) name (s : sparse U), s_full s <= 100 -> free_of "010" name ->
    print_sparse show name s = Ok t -> exists rest, lines_of t = name :: rest).
  { intros U show name s Hs Hf. unfold print_sparse. destruct (Nat.ltb_spec 100 (s_full s)); [lia|].
    destruct (mapM _ _) as [vs| | | |]; try discriminate. cbn [bind]. destruct (mapM _ _) as [ks| | | |]; try discriminate. cbn [bind].
    destruct (mapM _ _) as [os| | | |]; try discriminate. cbn [bind]. intros HE. match type of HE with Ok ?x = Ok t => assert (Ht : x = t) by (clear - HE; congruence) end. rewrite <- Ht. unfold lines_of. rewrite lf_line by exact Hf. eexists; reflexivity. }
  assert (HD : forall U (show : U -> string * string) name (d : dense U), d_rows d <= 100 -> d_cols d <= 100 -> free_of "010" name ->
    print_dense show name true d = Ok t -> exists rest, lines_of t = name :: rest).
  { intros U show name d Hr Hc Hf. unfold print_dense. destruct (Nat.ltb_spec 100 (d_rows d)); [lia|]. destruct (Nat.ltb_spec 100 (d_cols d)); [lia|].
    cbn [orb]. destruct (forM _ _ _) as [w| | | |]; try discriminate. cbn [bind].
    set (head := (name ++ nl ++ "Dimension = " ++ num (d_rows d) ++ " x " ++ num (d_cols d) ++ nl)%string).
    destruct (forM _ _ (head ++ nl)%string) as [out| | | |] eqn:EF; try discriminate. cbn [bind]. intros [= <-].
    assert (G : exists r, out = (name ++ nl ++ r)%string).
    { apply (Exact9_Props.forM_run _ (fun _ o => exists r, o = (name ++ nl ++ r)%string) _ _ _ EF).
      - unfold head. eexists. rewrite !app_s_assoc. reflexivity.
      - intros k x y _ (r & ->) Ey. apply bind_ok in Ey as (ads & _ & Ey). apply bind_ok in Ey as (o & Eo & Ey). injection Ey as <-.
        assert (G : forall l s0 s1, (exists r, s0 = (name ++ nl ++ r)%string) ->
          foldM (fun '(k, a) out => do v <- rd (d_buf d) a;
            match nth_error (map S w) k with None => UB OOBRead | Some x => Ok (out ++ setw x (fst (show v)) ++ snd (show v))%string end) l s0 = Ok s1 ->
          exists r, s1 = (name ++ nl ++ r)%string).
        { induction l0 as [|[k' a] l0 IH]; intros s0 s1 (r' & ->); cbn [foldM].
          - intros HE. exists r'. congruence.
          - intros Es. apply bind_ok in Es as (s2 & E2 & Es). apply bind_ok in E2 as (v & _ & E2).
            destruct (nth_error (map S w) k'); [|discriminate]. injection E2 as <-. apply (IH _ _) in Es; [exact Es|].
            eexists. rewrite !app_s_assoc. reflexivity. }
        destruct (G _ _ _ (ex_intro _ r eq_refl) Eo) as (r2 & ->). eexists. rewrite !app_s_assoc. reflexivity. }
    destruct G as (r & ->). unfold lines_of. rewrite !app_s_assoc, lf_line by exact Hf. eexists; reflexivity. }
  destruct l as [z|s|s|d|d]; cbn [print_leaf named leaf_ty name_of] in *.
  - destruct (C58_printed_zero F D showF showD full z) as (t' & E' & L'). cbn [print_leaf] in E'. assert (Q : t' = t) by congruence. rewrite <- Q, L'. eexists; reflexivity.
  - now apply (HS _ showF _ s).
  - now apply (HS _ showD _ s).
  - destruct HN as (-> & ? & ?). now apply (HD _ (fun v => (showF v, "")) _ d).
  - destruct HN as (-> & ? & ?). now apply (HD _ (fun v => (showD v, "")) _ d).
Qed.
Print Assumptions C58_name_first.
Example C58_name_nonvacuous :
  named true (LDf demoC : leaf Z Z) /\ named false (LSd demoS : leaf Z Z) /\
  (exists t, print_leaf show_Z show_Z true (LDf demoC) = Ok t) /\ (exists t, print_leaf show_Z show_Z false (LSd demoS) = Ok t).
Proof. repeat split; try (cbn; lia); eexists; vm_compute; reflexivity. Qed.

(** A pointer to an object whose type is not listed: reported, or, in a release build
    without exceptions, treated as an object of the last type. *)
Theorem C58_unlisted :
  forall (F D : Type) (showF : F -> string) (showD : D -> string) full d, ~ In (dyn_ty d) type_list ->
    (forall dbg, print_ptr showF showD full true dbg (Some d) = Throw) /\
    print_ptr showF showD full false true (Some d) = AssertFail /\
    print_ptr showF showD full false false (Some d) = UB DeadObject.
Proof.
  intros F D showF showD full d H.
  assert (N : type_index d = length type_list) by (unfold type_index; now rewrite get_index_out).
  assert (B : mty_eqb (dyn_ty d) (TL (TD ED)) = false).
  { destruct (mty_eqb (dyn_ty d) (TL (TD ED))) eqn:E; [|reflexivity]. exfalso. apply H.
    assert (Q : dyn_ty d = TL (TD ED)) by (destruct (dyn_ty d) as [[|[]|[]]|]; try discriminate; reflexivity).
    rewrite Q. cbn. tauto. }
  unfold print_ptr, exec_member. cbn [deref bind]. rewrite N.
  repeat split; intros; cbn; rewrite ?B; reflexivity.
Qed.
Print Assumptions C58_unlisted.

(** C69.  A timer going out of scope writes its label in a field of the width in force,
    then without padding a colon, the seconds in fixed notation with its own precision,
    and the unit. *)
Definition spaces (n : nat) : string := string_of_list_ascii (repeat " "%char n).
Lemma blanks_spaces n : blanks n = spaces n.
Proof.
  unfold Stream_Model.blanks, spaces. induction n as [|n IH]; [reflexivity|]. cbn [repeat string_of_list_ascii].
  rewrite <- IH. destruct n; reflexivity.
Qed.
Theorem C69_timer :
  forall (N : Type) (render : notation -> Z -> N -> string) (seconds : Z -> N) pre k label p ns post st,
    let w := width k (s_width (st k)) pre in
    let fill := spaces (w - String.length label) in
    nth_error (snd (write_all render seconds st (pre ++ (k, ITimer label p ns) :: post))) (List.length pre) =
    Some ((if alignment k (s_left (st k)) pre then label ++ fill else fill ++ label) ++ ": " ++ render Fixed p (seconds ns) ++ " s")%string.
Proof.
  intros N render seconds pre k label p ns post st w fill. rewrite nth_text.
  destruct (state_is render seconds pre st k) as (_ & E2 & E3 & _). cbn zeta in E2, E3.
  cbn [insert snd]. unfold put_timer, put_text, put_number, put_text. cbn [s_left s_width s_not s_prec s_acc snd fst].
  rewrite E2, E3. fold w. unfold pad. cbn [Nat.sub]. rewrite !blanks_spaces.
  change (spaces 0) with "". fold fill. f_equal.
  destruct (alignment k (s_left (st k)) pre); rewrite ?app_s_nil; reflexivity.
Qed.
Print Assumptions C69_timer.
Example C69_timer_nonvacuous :
  snd (write_all demo_render (fun ns => ns) (fun _ => new_stream) [(0, IWidth 5); (0, ITimer "ab" 3 7); (0, IText "c")]) =
  [""; "   ab: f3 s"; "c"]%string.
Proof. reflexivity. Qed.
