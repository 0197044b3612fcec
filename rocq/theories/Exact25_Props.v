(** C42: norms through run-time typed pointers, for every object, and norms of blocked
    matrices with blocks that have none.  C80: how a text is filled up. *)
From Coq Require Import String Ascii List Lia.
From Verif Require Import Base BaseLemmas Dense_Model Dense_Spec Dense_Proofs Dense2_Proofs Sparse_Model Sparse_Spec Mult_Model Mult_Spec
  Dyn_Model Dyn_Spec Dyn_Proofs Dyn2_Proofs Check_Model Check_Spec Norm_Model Norm_Spec Norm_Proofs Dense_Props Dyn_Props Norm_Props
  Stream_Model Text_Model Print_Model.
Import ListNotations.
#[local] Open Scope list_scope.

(** C42.  The norm through a pointer is the norm of the object pointed to if its type is
    one of the listed ones; a null pointer is dereferenced; an object of another type
    makes the lookup leave the table.  Before the tables are initialised the call
    throws for every listed object. *)
Theorem C42_norm_through_pointer :
  forall (F D : Type) (ar : arith F D) (nx : nops F D) k dbg,
    (forall d, In (dyn_ty d) type_list ->
       norm_ptr ar nx true k dbg (Some d) = norm_dyn ar nx k dbg d /\ norm_ptr ar nx false k dbg (Some d) = Throw) /\
    (forall ready d, ~ In (dyn_ty d) type_list -> norm_ptr ar nx ready k dbg (Some d) = UB OOBRead) /\
    (forall ready, norm_ptr ar nx ready k dbg None = UB NullDeref).
Proof.
  intros F D ar nx k dbg. split; [|split].
  - intros d H. split; [now apply norm_ptr_spec|]. unfold norm_ptr. cbn [deref bind]. unfold norm_table, type_index.
    rewrite nth_error_map, (get_index_in _ _ H). reflexivity.
  - intros ready d H. unfold norm_ptr. cbn [deref bind]. unfold type_index. rewrite (get_index_out _ _ H).
    assert (E : nth_error (norm_table ar nx ready k dbg) (length type_list) = None); [|now rewrite E].
    apply nth_error_None. unfold norm_table. now rewrite map_length.
  - reflexivity.
Qed.
Print Assumptions C42_norm_through_pointer.

(** A blocked matrix whose blocks are asked for their norms in storage order: the first
    block without a norm ends the computation, as its own norm would. *)
Theorem C42_blocked_stops :
  forall (F D : Type) (ar : arith F D) (nx : nops F D) ready k dbg (b : blocked F D) nr nc f pre i j post,
    is_mat (b_mat b) nr nc f ->
    in_storage_order (d_orient (b_mat b)) nr nc (fun i j => (i, j)) = pre ++ (i, j) :: post ->
    (forall i' j', In (i', j') pre -> exists v, norm_ptr ar nx ready k dbg (f i' j') = Ok v) ->
    (forall v, norm_ptr ar nx ready k dbg (f i j) <> Ok v) ->
    norm_blocked ar nx ready k dbg b = norm_ptr ar nx ready k dbg (f i j).
Proof.
  intros F D ar nx ready k dbg b nr nc f pre i j post [W V] HO HP HF. unfold norm_blocked.
  rewrite iter_addrs_ok by (left; exact W). cbn [bind]. rewrite foldM_map.
  pose proof V as (Hr & Hc & HG). rewrite Hr, Hc.
  assert (EO : order (d_orient (b_mat b)) nr nc = pre ++ (i, j) :: post).
  { rewrite <- HO, storage_order_map. symmetry. etransitivity; [|apply map_id]. apply map_ext. now intros []. }
  assert (IN : forall p, In p (pre ++ (i, j) :: post) -> fst p < nr /\ snd p < nc).
  { intros [x y] Hp. rewrite <- EO in Hp. now apply in_order in Hp. }
  rewrite EO. clear HO EO. generalize (d0 ar).
  induction pre as [|[x y] pre IH]; intros s; cbn [app foldM fst snd].
  - destruct (IN (i, j) (or_introl eq_refl)) as [Hi Hj]. cbn [fst snd] in Hi, Hj.
    rewrite rdz_nat. pose proof (view_cell _ _ _ f i j V Hi Hj) as E. apply rd_ok in E. rewrite E. cbn [bind].
    destruct (norm_ptr ar nx ready k dbg (f i j)) as [v| | | |]; try reflexivity. now contradiction (HF v).
  - destruct (IN (x, y) (or_introl eq_refl)) as [Hi Hj]. cbn [fst snd] in Hi, Hj.
    rewrite rdz_nat. pose proof (view_cell _ _ _ f x y V Hi Hj) as E. apply rd_ok in E. rewrite E. cbn [bind].
    destruct (HP x y (or_introl eq_refl)) as (v & Ev). rewrite Ev. cbn [bind].
    apply IH; [intros; apply HP; now right|]. intros p Hp. apply IN. now right.
Qed.
Print Assumptions C42_blocked_stops.

(** The blocked matrix nb with its second block missing or of a type that is not listed. *)
Example C42_blocked_stops_nonvacuous :
  let nb' x := mkBlocked (mkDense (own_shape ColMajor 1 2) 2 (map Some [Some (DL (LDd nb_dense)); x]) true) 2 3 in
  let odd := DM (TD EF) (TD EF) None None : dyn Z Z in
  ~ In (dyn_ty odd) type_list /\
  is_mat (b_mat (nb' None)) 1 2 (fun _ J => match J with 0 => Some (DL (LDd nb_dense)) | _ => None end) /\
  norm_blocked zar znx true NTwo true (nb' None) = UB NullDeref /\
  norm_blocked zar znx true NTwo true (nb' (Some odd)) = UB OOBRead /\
  norm_ptr zar znx true NTwo true (Some (DL (LDd nb_dense))) = Ok 5%Z.
Proof.
  cbn zeta. split; [cbn; intros H; repeat (destruct H as [H|H]; [discriminate|]); exact H|]. split.
  - split; [repeat split; reflexivity|]. split; [reflexivity|]. split; [reflexivity|].
    intros [|i] [|[|j]] Hi Hj; try (cbn in *; lia); reflexivity.
  - repeat split; vm_compute; reflexivity.
Qed.

(** C80.  A text inserted into a stream stands at the right end (the left end after
    [left]) of a field as wide as the width in force, or as itself if it is longer; the
    rest of the field is the fill character. *)
Lemma length_app_s (a b : string) : String.length (a ++ b) = String.length a + String.length b.
Proof. induction a; cbn; auto. Qed.
Lemma length_filled c n : String.length (filled c n) = n.
Proof. induction n; cbn; auto. Qed.
Lemma get_filled c n k : k < n -> String.get k (filled c n) = Some c.
Proof. revert k. induction n as [|n IH]; intros [|k] H; try lia; [reflexivity|]. cbn. apply IH. lia. Qed.
Lemma get_app_s a b k : String.get (String.length a + k) (a ++ b) = String.get k b.
Proof. induction a; [reflexivity|]. exact IHa. Qed.
Lemma get_app_l a b k : k < String.length a -> String.get k (a ++ b)%string = String.get k a.
Proof. revert k. induction a as [|c a IH]; intros [|k] H; cbn in *; try lia; [reflexivity|]. apply IH. lia. Qed.
Theorem C80_field :
  forall (S : Type) (s : @fmt S) (t : string),
    let fill := f_width s - String.length t in
    String.length (pad_to s t) = Nat.max (f_width s) (String.length t) /\
    (forall k, k < String.length t -> String.get ((if f_left s then 0 else fill) + k) (pad_to s t) = String.get k t) /\
    (forall k, k < fill -> String.get ((if f_left s then String.length t else 0) + k) (pad_to s t) = Some (f_fill s)).
Proof.
  intros S s t fill. unfold pad_to. fold fill. set (b := filled (f_fill s) fill).
  assert (Hb : String.length b = fill) by apply length_filled.
  destruct (f_left s); rewrite length_app_s, Hb; (split; [unfold fill; lia|]); split; intros k Hk.
  - now rewrite get_app_l.
  - rewrite get_app_s. now apply get_filled.
  - rewrite <- Hb at 1. now rewrite get_app_s.
  - rewrite get_app_l by (cbn [plus]; lia). now apply get_filled.
Qed.
Print Assumptions C80_field.
Example C80_field_nonvacuous :
  pad_to (mkFmt General 6 5 false "*"%char tt false) "ab" = "***ab"%string /\
  pad_to (mkFmt General 6 5 true "*"%char tt false) "ab" = "ab***"%string /\
  pad_to (mkFmt General 6 1 true "*"%char tt false) "ab" = "ab"%string.
Proof. repeat split. Qed.
