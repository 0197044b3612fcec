(** C44: a matrix constructed from a description file.  C66: what the two numbers of a
    row of the benchmark's table are, and what the difference file holds. *)
From Coq Require Import List NArith ZArith Lia.
From Verif Require Import Base BaseLemmas Dense_Model Dense_Spec Dense_Proofs Dense2_Proofs Sparse_Model Sparse_Spec Mult_Spec
  IO_Model IO_Spec IO_Proofs IO_Props Exact10_Props.
From Verif Require Import Mult_Model Mult_Proofs Dyn_Model Dyn_Spec Dyn_Proofs Check_Model Check_Spec Norm_Model Norm_Spec Norm_Proofs Tools_Model Bench_Model Bench_Spec
  Dense_Props Dyn_Props Norm_Props Tools_Props Bench_Props Table_Props.
Import ListNotations.
#[local] Open Scope list_scope.

(** C44.  Construction from a description file, for matrices of both orientations: the
    matrix has the described window's size and the orientation of its type.  Column-major:
    element (i, j) is the window's.  Row-major: the window's elements are taken in
    column-major order into row-major places.  What the data file does not hold is
    uninitialised. *)
Theorem C44_constructed_from_files :
  forall (T : Type) (sz : N) (o : orient) (s : fset) (file : list T),
    window_fits s -> (0 < sz)%N -> (fs_rld s * (fs_cld s + 1) * sz < 2 ^ 63)%N -> (fs_cld s < 2 ^ 64)%N ->
    let nr := N.to_nat (fs_rows s) in let nc := N.to_nat (fs_cols s) in
    let in_file r c := nth_error file ((N.to_nat (fs_coff s) + c) * N.to_nat (fs_rld s) + (N.to_nat (fs_roff s) + r)) in
    exists e, d_from_file sz o (Some s) (Some file) = Ok e /\ d_rows e = nr /\ d_cols e = nc /\ d_orient e = o /\
      d_getSize e = nr * nc /\ d_own e = true /\
      forall dbg i j, i < nr -> j < nc ->
        dget dbg e i j = match (match o with ColMajor => in_file i j | RowMajor => in_file ((i * nc + j) mod nr) ((i * nc + j) / nr) end)
                         with Some x => Ok x | None => UB UninitRead end.
Proof.
  intros T sz o s file Hw Hsz Hbig Hc nr nc in_file. unfold d_from_file.
  destruct (C44_any_file T sz file s (d_default o)) as (e & E & Hr & Hcl & Ho & Hs & Hown & G); auto; [repeat split|].
  fold nr nc in Hr, Hcl, Hs, G.
  exists e. split; [exact E|]. split; [exact Hr|]. split; [exact Hcl|]. split; [rewrite Ho; reflexivity|]. split; [exact Hs|]. split; [exact Hown|].
  intros dbg i j Hi Hj. specialize (G dbg i j Hi Hj). cbn zeta in G. rewrite G.
  change (d_orient (@d_default T o)) with o. assert (Hnr : nr <> 0) by lia.
  assert (U : dget dbg (fst (d_resize (@d_default T o) nr nc)) i j = UB UninitRead).
  { unfold d_resize. cbn [d_default d_own d_sh own_shape sh_sub negb andb]. rewrite ?Bool.andb_false_r. cbn [fst].
    rewrite dget_own by (cbn; auto). unfold d_orient, d_rows, d_cols. cbn [d_sh d_buf sh_o sh_rows sh_cols].
    unfold st_resize, alloc. cbn [d_default d_buf d_sh own_shape sh_o length].
    assert (Hq : lin o nr nc i j < nr * nc) by (unfold lin; destruct o; nia).
    destruct (Nat.eqb_spec 0 (nr * nc)); [lia|].
    unfold rd. now rewrite nth_error_repeat by exact Hq. }
  rewrite U. destruct o; cbn [lin].
  - unfold lin, d_orient. cbn [d_default d_sh own_shape sh_o]. unfold in_file, source. reflexivity.
  - assert (M1 : (j * nr + i) mod nr = i) by (rewrite Nat.add_comm, Nat.mod_add, Nat.mod_small by lia; reflexivity).
    assert (M2 : (j * nr + i) / nr = j) by (rewrite Nat.add_comm, Nat.div_add, Nat.div_small by lia; reflexivity).
    unfold lin, d_orient. cbn [d_default d_sh own_shape sh_o]. rewrite M1, M2. unfold in_file, source. reflexivity.
Qed.
Print Assumptions C44_constructed_from_files.

(** Which constructions fail: no description; no data file; a window larger than the
    stored matrix (with sums that wrap around at 2^64). *)
Theorem C44_construction_rejected :
  forall (T : Type) (sz : N) (o : orient) (desc : option fset) (file : option (list T)),
    d_from_file sz o desc file = Throw <->
      desc = None \/ file = None \/
      exists s, desc = Some s /\ (fs_rld s < (fs_rows s + fs_roff s) mod 2 ^ 64 \/ fs_cld s < (fs_cols s + fs_coff s) mod 2 ^ 64)%N.
Proof.
  intros T sz o desc file. unfold d_from_file. destruct desc as [s|]; [|tauto].
  assert (Hm : @owning T (d_default o)) by repeat split.
  destruct file as [file|].
  - pose proof (C44_accepted_windows T sz file s (d_default o) Hm) as A. split.
    + intros H. right. right. exists s. split; [reflexivity|]. now apply A.
    + intros [H|[H|(s' & H & H')]]; try discriminate. injection H as <-. now apply A.
  - split; [auto|]. intros _. unfold file_read. destruct (d_resize _ _ _) as [m' threw]. destruct threw; [reflexivity|].
    destruct (_ <? _)%N; [reflexivity|]. destruct (_ <? _)%N; reflexivity.
Qed.
Print Assumptions C44_construction_rejected.

(** Rows 0-1 and columns 0-2 of the file, as a row-major matrix: permuted. *)
Example C44_constructed_nonvacuous :
  let s := mkFset 2 3 2 3 0 0 in window_fits s /\
  exists e, d_from_file 8 RowMajor (Some s) (Some [1; 2; 3; 4; 5]%Z) = Ok e /\ d_orient e = RowMajor /\
    dget true e 0 1 = Ok 2%Z /\ dget true e 1 0 = Ok 4%Z /\ dget true e 1 2 = UB UninitRead.
Proof. split; [split; cbn; lia|]. eexists. split; [vm_compute; reflexivity|]. repeat split; reflexivity. Qed.

(** C66.  With exact arithmetic: the difference file holds the action's result minus the
    reference, element by element, and the two numbers of the row are the maximum norm
    and the two-norm of this difference. *)
Theorem C66_row_and_file :
  forall (F D : Type) (ar : arith F D) (nx : nops F D) (SD : Scalar D), nexact ar nx ->
    linear ar -> abs_pos ar -> sqrtD nx s0 = s0 ->
  forall dbg (C R : dense D) r c f g,
    is_mat C r c f -> is_mat R r c g -> d_orient C = ColMajor -> d_orient R = ColMajor ->
    exists d m, diff_of ar dbg C R = Ok d /\ is_mat d r c (fun i j => ssub (f i j) (g i j)) /\ d_orient d = ColMajor /\
      norms_of ar nx d = Ok (m, norm2 nx r c (fun i j => ssub (f i j) (g i j))) /\
      is_norm_max ar r c (fun i j => ssub (f i j) (g i j)) m.
Proof.
  intros F D ar nx SD X L P S0 dbg C R r c f g MC MR OC OR.
  assert (XX := nx_exact ar nx X).
  destruct (bin_leaf_spec ar XX Minus dbg (LDd C) (LDd R) r c f g (conj OC MC) (conj OR MR) eq_refl) as (e & E & T & Re).
  unfold bin_leaf, rmap in E. unfold diff_of. destruct (d_binop (binD ar Minus) dbg ColMajor C R) as [d| | | |]; try discriminate.
  cbn [bind] in E. injection E as <-.
  destruct (norm_leaf_spec ar nx X NMax (LDd d) r c _ (conj L P) Re I) as (m & Em & Hm).
  destruct (norm_leaf_spec ar nx X NTwo (LDd d) r c _ S0 Re I) as (t & Et & Ht).
  exists d, m. split; [reflexivity|]. destruct Re as [Od Md]. split; [exact Md|]. split; [exact Od|].
  unfold norms_of. rewrite Em. cbn [bind]. rewrite Et. cbn [bind]. cbn [is_norm] in *. split; [now rewrite Ht|exact Hm].
Qed.
Print Assumptions C66_row_and_file.

(** The differences -1 and 2: norms 2 and 5 (a stand-in for the root of the squares, 5). *)
Example C66_row_nonvacuous :
  let C := mkDense (own_shape ColMajor 1 2) 2 [Some 1; Some 4]%Z true in
  let R := mkDense (own_shape ColMajor 1 2) 2 [Some 2; Some 2]%Z true in
  nexact zar znx /\ linear zar /\ abs_pos zar /\ sqrtD znx 0%Z = 0%Z /\
  exists d, diff_of zar true C R = Ok d /\ d_buf d = [Some (-1); Some 2]%Z /\ norms_of zar znx d = Ok (2, sqrtD znx 5)%Z.
Proof.
  split; [exact znx_exact|]. split; [exact zar_linear|]. split; [apply (zar_kok NMax)|]. split; [reflexivity|].
  eexists. split; [vm_compute; reflexivity|]. split; [reflexivity|]. vm_compute. reflexivity.
Qed.
