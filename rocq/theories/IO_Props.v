(** C43, C44, C55: serialisation and matrix files.  Vocabulary: IO_Spec.v. *)
From Coq Require Import NArith Nnat.
From Verif Require Import Base BaseLemmas Dense_Model Dense_Spec Dense_Proofs Dense2_Proofs Norm_Spec Norm_Proofs
  IO_Model IO_Spec IO_Proofs Dense_Props.

(** ** C43 *)
(** Whatever follows in the archive, whatever the target held before. *)
Theorem C43_round_trip :
  forall (T : Type) (d e : dense T) r c f, is_mat d r c f -> same_class d e ->
    exists l, d_save d = Ok l /\ forall rest, exists e', d_load e (l ++ rest) = Ok (e', rest) /\
      is_mat e' r c f /\ d_orient e' = d_orient d /\ d_getSize e' = d_getSize d /\ d_own e' = true.
Proof. intros T d e r c f. exact (save_load d e r c f). Qed.
Print Assumptions C43_round_trip.

(** Any number of matrices one after the other. *)
Theorem C43_sequences :
  forall (T : Type) (ds es : list (dense T)) (fs : list (nat * nat * (nat -> nat -> T))),
    Forall2 (fun d s => let '(r, c, f) := s in is_mat d r c f) ds fs -> Forall2 same_class ds es ->
    exists l, save_all ds = Ok l /\ forall rest, exists es', load_all es (l ++ rest) = Ok (es', rest) /\
      Forall2 (fun e s => let '(r, c, f) := s in is_mat e r c f) es' fs.
Proof.
  intros T ds es fs HF. revert es. induction HF as [|d [[r c] f] ds fs Hd HF IH]; intros es HS.
  - inversion HS; subst. exists []. split; [reflexivity|]. intros rest. exists []. split; [reflexivity|constructor].
  - inversion HS as [|? e ? es0 Hc Hs]; subst. destruct (IH es0 Hs) as (l2 & E2 & G2).
    destruct (save_load d e r c f Hd Hc) as (l1 & E1 & G1). exists (l1 ++ l2). split.
    + cbn [save_all]. rewrite E1, E2. reflexivity.
    + intros rest. rewrite <- app_assoc. destruct (G1 (l2 ++ rest)) as (e' & Ee & Me & _).
      destruct (G2 rest) as (es' & Ees & Mes). exists (e' :: es'). cbn [load_all]. rewrite Ee. cbn [bind]. rewrite Ees.
      split; [reflexivity|]. constructor; auto.
Qed.
Print Assumptions C43_sequences.

(** An archive that ends too early, at any point, is reported. *)
Theorem C43_truncated_archive :
  forall (T : Type) (d e : dense T) r c f l, is_mat d r c f -> d_save d = Ok l ->
    forall n, n < length l -> d_load e (firstn n l) = Throw.
Proof.
  intros T d e r c f l M E n Hn. rewrite (d_save_ok d r c f M) in E. injection E as <-.
  destruct n as [|[|[|[|n]]]]; try reflexivity. cbn [firstn]. unfold d_load. cbn [get_n bind].
  set (xs := in_storage_order (d_orient d) r c f) in *. cbn [length] in Hn. rewrite map_length in Hn.
  assert (Hl : length xs = r * c) by apply storage_length.
  enough (H : load_values (r * c) (firstn n (map TV xs)) = Throw) by now rewrite H.
  rewrite <- Hl, firstn_map. unfold load_values.
  set (g := fun (i : nat) '((b, l) : buf T * list (tok T)) => do x <- get_v l; let '(v, l) := x in do b <- wr b i v; Ok (b, l)).
  assert (Hsplit : seq 0 (length xs) = seq 0 n ++ n :: seq (S n) (length xs - S n)).
  { replace (length xs) with (n + S (length xs - S n)) at 1 by lia. now rewrite seq_app. }
  unfold forM. rewrite Hsplit, foldM_app.
  pose proof (load_values_ok (firstn n xs) []) as EL. unfold load_values in EL. rewrite app_nil_r in EL.
  rewrite firstn_length, Nat.min_l in EL by lia.
  destruct (foldM_inv g (fun k st => exists b, st = (b, map TV (skipn k (firstn n xs))) /\ length b = length xs)
    (seq 0 n) (alloc (length xs), map TV (firstn n xs))) as (st & Es & b & -> & Lb).
  - exists (alloc (length xs)). split; [reflexivity|apply alloc_length].
  - intros k i st Hk (b & -> & Lb). rewrite nth_error_seq in Hk. destruct (Nat.ltb_spec k n) as [Hkn|]; [|discriminate].
    cbn in Hk. injection Hk as <-. destruct (nth_error (firstn n xs) k) as [x|] eqn:Ex.
    2:{ apply nth_error_None in Ex. rewrite firstn_length in Ex. lia. }
    rewrite (skipn_S_cons _ k x Ex). cbn [map g get_v bind]. rewrite wr_ok by lia. cbn [bind].
    eexists. split; [reflexivity|]. eexists. split; [reflexivity|]. now rewrite upd_length.
  - rewrite Es. rewrite seq_length, skipn_all2 by (rewrite firstn_length; lia). reflexivity.
Qed.
Print Assumptions C43_truncated_archive.

Example C43_nonvacuous : is_mat demoC 2 3 demoC_f /\ same_class demoC (d_default ColMajor) /\
  d_save demoC = Ok [TN 2; TN 3; TN 6; TN 6; TV 1; TV 4; TV 2; TV 5; TV 3; TV 6]%Z /\
  d_load (d_default ColMajor) [TN 2; TN 3; TN 6; TN 6; TV 1; TV 4; TV 2; TV 5; TV 3; TV 6; TN 9]%Z = Ok (demoC, [TN 9]).
Proof. split; [exact demoC_mat|]. repeat split; reflexivity. Qed.

(** The dimensions in the archive are not compared with the number of elements:
    an altered archive gives an object whose elements lie outside its memory. *)
Theorem C43_altered_archive_refuted :
  exists e, d_load (d_default ColMajor) [TN 2; TN 2; TN 4; TN 1; TV 7%Z] = Ok (e, []) /\
    d_rows e = 2 /\ d_cols e = 2 /\ dget true e 1 1 = UB OOBRead.
Proof. eexists. split; [reflexivity|]. repeat split; reflexivity. Qed.
Print Assumptions C43_altered_archive_refuted.

(** ** C44 *)
(** Every window that fits, of every stored matrix, into every column-major
    matrix that owns its memory, whatever its size before. *)
Theorem C44_window_of_file :
  forall (T : Type) (sz : N) (file : list T) (s : fset) (m : dense T) f,
    owning m -> d_orient m = ColMajor -> window_fits s ->
    file_holds file (N.to_nat (fs_rld s)) (N.to_nat (fs_cld s)) f ->
    (0 < sz)%N -> (fs_rld s * (fs_cld s + 1) * sz < 2 ^ 63)%N -> (fs_cld s < 2 ^ 64)%N ->
    exists e, file_read sz (Some file) s m = Ok e /\
      is_mat e (N.to_nat (fs_rows s)) (N.to_nat (fs_cols s))
        (fun i j => f (N.to_nat (fs_roff s) + i) (N.to_nat (fs_coff s) + j)) /\
      d_orient e = ColMajor /\ full_ok e /\ d_own e = true.
Proof. intros T sz file s m f. exact (file_read_ok sz file s m f). Qed.
Print Assumptions C44_window_of_file.

(** A window that does not fit, or a missing file, is reported. *)
Theorem C44_bad_window_rejected :
  forall (T : Type) (sz : N) (file : option (list T)) (s : fset) (m : dense T),
    (fs_roff s + fs_rows s < 2 ^ 64)%N -> (fs_coff s + fs_cols s < 2 ^ 64)%N ->
    ~ window_fits s \/ file = None -> file_read sz file s m = Throw.
Proof.
  intros T sz file s m H1 H2 H. unfold file_read. destruct (d_resize m _ _) as [m' threw]. destruct threw; [reflexivity|].
  unfold w64. rewrite !N.mod_small by lia.
  destruct (N.ltb_spec (fs_rld s) (fs_rows s + fs_roff s)); [reflexivity|].
  destruct (N.ltb_spec (fs_cld s) (fs_cols s + fs_coff s)); [reflexivity|].
  destruct H as [H|H]; [exfalso; apply H; unfold window_fits; lia|now rewrite H].
Qed.
Print Assumptions C44_bad_window_rejected.

(** Reading a window back from the file of a written matrix gives that part of
    the matrix. *)
Theorem C44_window_of_written_matrix :
  forall (T : Type) (sz : N) (d m : dense T) r c f (s : fset),
    is_mat d r c f -> full_ok d -> d_orient d = ColMajor ->
    fs_rld s = N.of_nat r -> fs_cld s = N.of_nat c -> window_fits s ->
    owning m -> d_orient m = ColMajor ->
    (0 < sz)%N -> (N.of_nat r * (N.of_nat c + 1) * sz < 2 ^ 63)%N -> (N.of_nat c < 2 ^ 64)%N ->
    exists file e, raw_write d = Ok file /\ file_read sz (Some file) s m = Ok e /\
      is_mat e (N.to_nat (fs_rows s)) (N.to_nat (fs_cols s))
        (fun i j => f (N.to_nat (fs_roff s) + i) (N.to_nat (fs_coff s) + j)).
Proof.
  intros T sz d m r c f s M HF HO E1 E2 Hw Hm Om Hs Hb Hc.
  exists (in_storage_order (d_orient d) r c f).
  destruct (file_read_ok sz (in_storage_order (d_orient d) r c f) s m f) as (e & Ee & Me & _); auto.
  - rewrite E1, E2, !Nat2N.id, HO. apply storage_holds.
  - now rewrite E1, E2.
  - now rewrite E2.
  - exists e. split; [now apply raw_write_ok|]. auto.
Qed.
Print Assumptions C44_window_of_written_matrix.

(** Rows 1-2 and column 1 of a 3 x 2 matrix. *)
Definition demo_set : fset := mkFset 2 1 3 2 1 1.
Definition demo_file : list Z := [1; 2; 3; 4; 5; 6]%Z.
Example C44_nonvacuous :
  @owning Z (d_default ColMajor) /\ window_fits demo_set /\
  file_holds demo_file 3 2 (fun i j => Z.of_nat (3 * j + i + 1)) /\ (3 * (2 + 1) * 8 < 2 ^ 63)%N /\
  exists e, file_read 8 (Some demo_file) demo_set (d_default ColMajor) = Ok e /\ d_buf e = map Some [5; 6]%Z.
Proof.
  split; [repeat split|]. split; [split; reflexivity || (cbn; lia)|]. split.
  - intros [|[|[|i]]] [|[|j]] Hi Hj; try lia; reflexivity.
  - split; [reflexivity|]. eexists. split; vm_compute; reflexivity.
Qed.

(** The stream is not checked after reading: a file that is too short gives a
    matrix with elements never written, without any report. *)
Theorem C44_short_file_refuted :
  exists e, file_read 8 (Some [1; 2; 3]%Z) (mkFset 2 2 2 2 0 0) (d_default ColMajor) = Ok e /\
    d_rows e = 2 /\ d_cols e = 2 /\ dget true e 0 1 = Ok 3%Z /\ dget true e 1 1 = UB UninitRead.
Proof. eexists. split; [vm_compute; reflexivity|]. repeat split; reflexivity. Qed.
Print Assumptions C44_short_file_refuted.

(** A row-major matrix receives the column-major data unchanged: the elements are
    permuted. *)
Theorem C44_row_major_refuted :
  file_holds [1; 2; 3; 4]%Z 2 2 (fun i j => Z.of_nat (2 * j + i + 1)) /\
  exists e, file_read 8 (Some [1; 2; 3; 4]%Z) (mkFset 2 2 2 2 0 0) (d_default RowMajor) = Ok e /\
    dget true e 0 1 = Ok 2%Z.
Proof.
  split; [intros [|[|i]] [|[|j]] Hi Hj; try lia; reflexivity|]. eexists. split; vm_compute; reflexivity.
Qed.
Print Assumptions C44_row_major_refuted.

(** The size check wraps: an offset of 2^64 - 1 is accepted and ignored. *)
Theorem C44_offset_wrap_refuted :
  let s := mkFset 1 1 1 1 (2 ^ 64 - 1) 0 in
  ~ window_fits s /\ exists e, file_read 8 (Some [7]%Z) s (d_default ColMajor) = Ok e /\ dget true e 0 0 = Ok 7%Z.
Proof.
  split; [intros [H _]; cbn in H; lia|]. eexists. split; vm_compute; reflexivity.
Qed.
Print Assumptions C44_offset_wrap_refuted.

(** ** C55 *)
(** Written by the generator program, read by the importer. *)
Theorem C55_write_import :
  forall (T : Type) (d : dense T) r c f, is_mat d r c f -> full_ok d -> d_orient d = ColMajor ->
    exists file, raw_write d = Ok file /\ forall rest,
    exists e, import_raw (Some (r, c)) (Some (file ++ rest)) = Ok e /\ is_mat e r c f /\ d_orient e = ColMajor /\
      full_ok e /\ d_own e = true.
Proof.
  intros T d r c f M HF HO. exists (in_storage_order (d_orient d) r c f). split; [now apply raw_write_ok|].
  intros rest. apply import_ok. rewrite HO. intros i j Hi Hj. pose proof (storage_holds r c f i j Hi Hj) as E.
  rewrite nth_error_app1; [exact E|]. apply nth_error_Some. congruence.
Qed.
Print Assumptions C55_write_import.

Theorem C55_import_rejects_short_files :
  forall (T : Type) (file : list T) r c, length file < r * c ->
    import_raw (Some (r, c)) (Some file) = Throw /\ import_raw (T := T) (Some (r, c)) None = Throw /\
    import_raw None (Some file) = Throw.
Proof. intros T file r c H. split; [now apply import_short|]. split; reflexivity. Qed.
Print Assumptions C55_import_rejects_short_files.

Example C55_nonvacuous : is_mat demoC 2 3 demoC_f /\ full_ok demoC /\ d_orient demoC = ColMajor /\
  raw_write demoC = Ok [1; 4; 2; 5; 3; 6]%Z /\
  exists e, import_raw (Some (2, 3)) (Some [1; 4; 2; 5; 3; 6; 9]%Z) = Ok e /\ d_buf e = d_buf demoC.
Proof. split; [exact demoC_mat|]. repeat split. eexists. split; reflexivity. Qed.

(** The same two programs with a row-major matrix: the importer's matrix is
    column-major, so the elements are permuted. *)
Theorem C55_row_major_refuted :
  let d := mkDense (own_shape RowMajor 2 2) 4 (map Some [1; 2; 3; 4]%Z) true in
  is_mat d 2 2 (fun i j => Z.of_nat (2 * i + j + 1)) /\
  exists file e, raw_write d = Ok file /\ import_raw (Some (2, 2)) (Some file) = Ok e /\
    dget true d 0 1 = Ok 2%Z /\ dget true e 0 1 = Ok 3%Z.
Proof.
  split.
  - split; [repeat split|]. split; [reflexivity|]. split; [reflexivity|].
    intros [|[|i]] [|[|j]] Hi Hj; try lia; reflexivity.
  - eexists; eexists. split; [vm_compute; reflexivity|]. split; [vm_compute; reflexivity|]. split; reflexivity.
Qed.
Print Assumptions C55_row_major_refuted.
