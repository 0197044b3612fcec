(** C40: every outcome of choosing block sizes for a product, whatever the dimensions
    of the two matrices. *)
From Coq Require Import Permutation.
From Verif Require Import Base BaseLemmas Dense_Model Dense_Spec Dense_Proofs Bsg_Model Bsg_Spec Bsg_Proofs Bsg2_Proofs Dense_Props Bsg_Props.

Lemma add_profiles_short {T} (bn : bnum T) a b : length b < length a -> add_profiles bn a b = UB OOBRead.
Proof.
  revert b. induction a as [|x t IH]; intros [|y u] L; cbn in L |- *; try lia; [reflexivity|].
  rewrite IH by lia. reflexivity.
Qed.

(** A is m x n, B is n' x l.  The dimensions are not compared:
    - a matrix without elements: std::length_error (an exception);
    - B has fewer rows than A has columns: B's profile is read past its end;
    - B has as many rows or MORE: the sizes tile the rows and the columns of A and the
      columns of B, or, with a minimum size of at least 2, a missing candidate is read. *)
Theorem C40_product_every_outcome :
  forall (T : Type) (bn : bnum T) (A B : dense T) m n n' l fa fb mn mx ri ki ci,
    is_mat A m n fa -> is_mat B n' l fb ->
    Permutation ri (seq 0 (m - 1)) -> Permutation ki (seq 0 (n - 1)) -> Permutation ci (seq 0 (l - 1)) ->
    let out := generate_mult bn mn mx A B ri ki ci in
    ((m = 0 \/ n = 0 \/ n' = 0 \/ l = 0) -> out = Throw) /\
    (1 <= m -> 1 <= n -> 1 <= n' -> 1 <= l ->
      (n' < n -> out = UB OOBRead) /\
      (n <= n' -> (exists a k b, out = Ok (a, k, b) /\ tiles a m /\ tiles k n /\ tiles b l) \/ (2 <= mn /\ out = UB UninitRead))).
Proof.
  intros T bn A B m n n' l fa fb mn mx ri ki ci MA MB P1 P2 P3 out. unfold out, generate_mult.
  pose proof MA as [_ (RA & CA & _)]. pose proof MB as [_ (RB & CB & _)].
  assert (DZ : forall (d : dense T) r c f, is_mat d r c f -> r = 0 \/ c = 0 -> detection bn d = Throw).
  { intros d r c f [_ (Hr & Hc & _)] H. unfold detection. rewrite Hr, Hc.
    destruct H as [-> | ->]; [reflexivity|]. cbn [Nat.eqb]. now rewrite orb_true_r. }
  split.
  - intros H. destruct (Nat.eq_dec m 0) as [Zm|Zm]; [now rewrite (DZ A m n fa MA) by auto|].
    destruct (Nat.eq_dec n 0) as [Zn|Zn]; [now rewrite (DZ A m n fa MA) by auto|].
    rewrite (detection_any bn A m n fa MA) by lia. cbn [bind]. rewrite (DZ B n' l fb MB); [reflexivity|]. tauto.
  - intros Lm Ln Ln' Ll.
    rewrite (detection_any bn A m n fa MA Lm Ln). cbn [bind].
    rewrite (detection_any bn B n' l fb MB Ln' Ll). cbn [bind fst snd].
    set (ra := map (row_profile bn n _) (seq 0 (m - 1))). set (ca := map (col_profile bn m _) (seq 0 (n - 1))).
    set (rb := map (row_profile bn l _) (seq 0 (n' - 1))). set (cb := map (col_profile bn n' _) (seq 0 (l - 1))).
    assert (Lra : length ra = m - 1) by (unfold ra; now rewrite map_length, seq_length).
    assert (Lca : length ca = n - 1) by (unfold ca; now rewrite map_length, seq_length).
    assert (Lrb : length rb = n' - 1) by (unfold rb; now rewrite map_length, seq_length).
    assert (Lcb : length cb = l - 1) by (unfold cb; now rewrite map_length, seq_length).
    split.
    + intros H. rewrite add_profiles_short by lia. reflexivity.
    + intros H. destruct (add_profiles_ok bn ca rb) as (kk & Ek); [lia|]. rewrite Ek. cbn [bind].
      apply add_profiles_length in Ek.
      assert (G : forall detect idx, Permutation idx (seq 0 (length detect)) ->
        (exists s, get_block_size bn mn mx detect idx = Ok s /\ tiles s (length detect + 1)) \/
        (2 <= mn /\ get_block_size bn mn mx detect idx = UB UninitRead)).
      { intros detect idx HP. pose proof (get_block_size_spec bn mn mx detect idx HP) as HH. cbn zeta in HH.
        pose proof (get_block_size_tiles bn mn mx detect idx) as HT.
        destruct (get_block_size bn mn mx detect idx) as [s| | |[]|]; try contradiction; [left|right; auto].
        exists s. split; [reflexivity|]. now apply HT. }
      destruct (G ra ri) as [(a & -> & Ta)|(L & ->)]; [now rewrite Lra| |right; auto]. cbn [bind].
      destruct (G kk ki) as [(k & -> & Tk)|(L & ->)]; [now rewrite Ek, Lca| |right; auto]. cbn [bind].
      destruct (G cb ci) as [(b & -> & Tb)|(L & ->)]; [now rewrite Lcb| |right; auto]. cbn [bind].
      left. exists a, k, b. rewrite Lra in Ta. rewrite Ek, Lca in Tk. rewrite Lcb in Tb.
      replace (m - 1 + 1) with m in Ta by lia. replace (n - 1 + 1) with n in Tk by lia. replace (l - 1 + 1) with l in Tb by lia. auto.
Qed.
Print Assumptions C40_product_every_outcome.

(** A 1 x 2 matrix with a 3 x 1 one: sizes come out, for 2 of the 3 rows; the other way
    round the profile is read outside. *)
Example C40_product_nonvacuous :
  let A := mkDense (own_shape RowMajor 1 2) 2 [Some 1; Some 8]%Z true in
  let B := mkDense (own_shape RowMajor 3 1) 3 [Some 1; Some 1; Some 9]%Z true in
  let C := mkDense (own_shape RowMajor 1 3) 3 [Some 1; Some 1; Some 9]%Z true in
  is_mat A 1 2 (fun _ j => if Nat.eqb j 0 then 1 else 8)%Z /\ is_mat B 3 1 (fun i _ => if Nat.eqb i 2 then 9 else 1)%Z /\
  generate_mult zbn 1 1 A B [] [0] [] = Ok ([1], [1; 1], [1]) /\
  generate_mult zbn 1 1 C A [] [0; 1] [0] = UB OOBRead.
Proof.
  cbn zeta. split; [|split; [|split; vm_compute; reflexivity]].
  - split; [repeat split; reflexivity|]. split; [reflexivity|]. split; [reflexivity|].
    intros [|i] [|[|j]] Hi Hj; try lia; reflexivity.
  - split; [repeat split; reflexivity|]. split; [reflexivity|]. split; [reflexivity|].
    intros [|[|[|i]]] [|j] Hi Hj; try lia; reflexivity.
Qed.
