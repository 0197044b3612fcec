(** Exact behaviour where C64, C70 and C74 are violated, for every input. *)
From Verif Require Import Base BaseLemmas Dense_Model Dense_Spec Dense_Proofs Dense2_Proofs Norm_Spec IO_Proofs Sparse_Model
  Mult_Model Mult_Spec Mult_Proofs Mult2_Proofs Mult3_Proofs Dyn_Model Norm_Model Tools_Model Bench_Model Bench_Spec
  Bench_Proofs Bench_Props Exact2_Props File_Model File_Props.
From Coq Require Import String List.
Import ListNotations.
Local Open Scope list_scope.

(** ** C64 *)
(** The product of the matrices the libraries see (every operand read column by
    column, [reread]), its element that lies where (i, j) lies in the result. *)
Definition seen_product {T1 T2 T3} (dot : list (T1 * T2) -> T3) (oa ob oc : orient) m n l f g (i j : nat) : T3 :=
  reread oc ColMajor m l (fun i' j' => dot (row_col n (reread ColMajor oa m n f) (reread ColMajor ob n l g) i' j')) i j.

Lemma recast_back {T} (c0 : dense T) b' r c f : wf_mem c0 ->
  is_mat (recast (d_orient c0) (with_buf (recast ColMajor c0) b')) r c f -> is_mat (with_buf c0 b') r c f.
Proof.
  intros (S1 & S2 & _) M. pose proof (buf_of_mat _ _ _ _ M) as E. destruct M as [(_ & _ & L) (R & C & _)].
  apply mat_of_buf; [exact S1|exact S2|exact R|exact C|exact E].
Qed.

Lemma view_product_any {T1 T2 T3} (dot : list (T1 * T2) -> T3) (a : dense T1) (b : dense T2) (c0 : dense T3) m n l fa fb :
  is_mat a m n fa -> is_mat b n l fb ->
  wf_mem c0 -> d_rows c0 = m -> d_cols c0 = l -> full_ok c0 -> d_own c0 = true ->
  exists b', view_product dot m n l n (d_buf a) (d_buf b) (d_buf c0) = Ok b' /\
    is_mat (with_buf c0 b') m l (seen_product dot (d_orient a) (d_orient b) (d_orient c0) m n l fa fb) /\
    full_ok (with_buf c0 b').
Proof.
  intros Ma Mb W0 R0 C0 F0 N0.
  pose proof (recast_mat ColMajor a m n fa Ma) as Ma'. pose proof (recast_mat ColMajor b n l fb Mb) as Mb'.
  assert (W1 : wf_mem (recast ColMajor c0)).
  { destruct W0 as (Hs & Hb & Hl). unfold recast, wf_mem, d_rows, d_cols in *; cbn; auto. }
  destruct (view_product_spec dot (recast ColMajor a) (recast ColMajor b) (recast ColMajor c0) m n l _ _ Ma' eq_refl Mb' eq_refl
    W1 R0 C0 F0 eq_refl N0) as (b' & E & M & FU & _).
  exists b'. split; [exact E|]. split; [|exact FU].
  apply (recast_back c0 b' _ _ _ W0). exact (recast_mat (d_orient c0) _ m l _ M).
Qed.

(** Eigen: every combination of orientations of the operands and the result. *)
Theorem C64_eigen_any_orientation_exact :
  forall (T1 T2 T3 : Type) (dot : list (T1 * T2) -> T3) dbg (a : dense T1) (b : dense T2) (c : dense T3) m n l f g,
    is_mat a m n f -> is_mat b n l g -> fresh_ok c ->
    exists d, mul_eigen dot dbg a b c = Ok d /\ d_orient d = d_orient c /\
      is_mat d m l (seen_product dot (d_orient a) (d_orient b) (d_orient c) m n l f g).
Proof.
  intros T1 T2 T3 dot dbg a b c m n l fa fb Ma Mb Hf. pose proof Ma as [_ (Ra & Ca & _)]. pose proof Mb as [_ (Rb & Cb & _)].
  unfold mul_eigen, cassert. rewrite Ca, Rb, Nat.eqb_refl, andb_false_r. cbn [bind].
  destruct (resize_shape c (d_rows a) (d_cols b) Hf) as (c0 & E0 & W0 & R0 & C0 & F0 & O0 & N0).
  rewrite E0, Ra, Cb in *.
  destruct (view_product_any dot a b c0 m n l fa fb Ma Mb W0 R0 C0 F0 N0) as (b' & E & M & _). rewrite E. cbn [bind].
  exists (with_buf c0 b'). split; [reflexivity|]. split; [exact O0|]. rewrite <- O0. exact M.
Qed.
Print Assumptions C64_eigen_any_orientation_exact.

(** Blaze: the same, for operands whose memory and row numbers the library takes. *)
Theorem C64_blaze_any_orientation_exact :
  forall (T1 T2 T3 : Type) (u1 : dense T1 -> bool) (u2 : dense T2 -> bool) (u3 : dense T3 -> bool) s1 s2 s3
      (dot : list (T1 * T2) -> T3) dbg (a : dense T1) (b : dense T2) (c : dense T3) m n l f g,
    is_mat a m n f -> is_mat b n l g -> fresh_ok c -> u1 a = true -> u2 b = true -> (forall d, u3 d = true) ->
    m mod s1 = 0 -> n mod s2 = 0 -> m mod s3 = 0 ->
    exists d, mul_blaze u1 u2 u3 s1 s2 s3 dot dbg a b c = Ok d /\ d_orient d = d_orient c /\
      is_mat d m l (seen_product dot (d_orient a) (d_orient b) (d_orient c) m n l f g).
Proof.
  intros T1 T2 T3 u1 u2 u3 s1 s2 s3 dot dbg a b c m n l fa fb Ma Mb Hf U1 U2 U3 H1 H2 H3.
  pose proof Ma as [_ (Ra & Ca & _)]. pose proof Mb as [_ (Rb & Cb & _)].
  unfold mul_blaze, cassert, blaze_view. rewrite Ca, Rb, Nat.eqb_refl, andb_false_r. cbn [bind negb].
  destruct (resize_shape c (d_rows a) (d_cols b) Hf) as (c0 & E0 & W0 & R0 & C0 & F0 & O0 & N0).
  rewrite E0, Ra, Cb in *. rewrite U1, U2, U3, R0, H1, H2, H3. cbn [Nat.eqb andb bind].
  destruct (view_product_any dot a b c0 m n l fa fb Ma Mb W0 R0 C0 F0 N0) as (b' & E & M & _). rewrite E. cbn [bind].
  exists (with_buf c0 b'). split; [reflexivity|]. split; [exact O0|]. rewrite <- O0. exact M.
Qed.
Print Assumptions C64_blaze_any_orientation_exact.

(** Square row-major operands and result: B times A is computed instead of A times
    B: element (i, j) is made of row i of B and column j of A. *)
Theorem C64_row_major_square_exact :
  forall (T1 T2 T3 : Type) (dot : list (T1 * T2) -> T3) dbg (a : dense T1) (b : dense T2) (c : dense T3) n f g,
    is_mat a n n f -> d_orient a = RowMajor -> is_mat b n n g -> d_orient b = RowMajor -> fresh_ok c -> d_orient c = RowMajor ->
    exists d, mul_eigen dot dbg a b c = Ok d /\ d_orient d = RowMajor /\
      is_mat d n n (fun i j => dot (map (fun k => (f k j, g i k)) (seq 0 n))).
Proof.
  intros T1 T2 T3 dot dbg a b c n f g Ma Oa Mb Ob Hf Oc.
  destruct (C64_eigen_any_orientation_exact T1 T2 T3 dot dbg a b c n n n f g Ma Mb Hf) as (d & E & O & M).
  exists d. split; [exact E|]. split; [congruence|]. eapply is_mat_ext; [exact M|]. intros i j Hi Hj. cbv beta.
  rewrite Oa, Ob, Oc. unfold seen_product. unfold reread at 1. unfold row_at, col_at, place.
  replace (i * n + j) with (j + i * n) by lia. rewrite Nat.mod_add, Nat.div_add, Nat.mod_small, Nat.div_small by lia. rewrite Nat.add_0_l.
  f_equal. unfold row_col. apply map_ext_in. intros k Hk. apply in_seq in Hk. unfold reread, row_at, col_at, place.
  rewrite !Nat.mod_add, !Nat.div_add, !Nat.mod_small, !Nat.div_small by lia. reflexivity.
Qed.
Print Assumptions C64_row_major_square_exact.
Example C64_any_orientation_nonvacuous :
  is_mat demoRM 2 2 demoRM_f /\ d_orient demoRM = RowMajor /\ fresh_ok (@d_default Z RowMajor) /\
  exists d, mul_eigen zdot true demoRM demoRM (d_default RowMajor) = Ok d /\ d_buf d = map Some [7; 10; 15; 22]%Z.
Proof. split; [exact demoRM_mat|]. split; [reflexivity|]. split; [apply default_fresh|]. eexists. split; vm_compute; reflexivity. Qed.

(** ** C70 *)
(** What a write leaves in its file, in every case. *)
Theorem C70_file_after_write_exact :
  forall (T : Type) (ar : archive T) f fs n v p ow ft r fs', write_file ar f fs n v p ow ft = (r, fs') ->
    fs' p = match ow, fs p with
            | false, Some old => Some old
            | _, _ => match a_body ar f n v with
                      | None => Some (a_head ar f)
                      | Some b => let all := a_head ar f ++ b ++ a_tail ar f in
                                  match ft with Complete => Some all | Short k _ | Dies k => Some (firstn k all) end
                      end
            end.
Proof.
  intros T ar f fs n v p ow ft r fs' E. unfold write_file in E.
  assert (P : forall x, put fs p x p = Some x) by (intros x; unfold put; now rewrite String.eqb_refl).
  destruct ow, (fs p) as [old|] eqn:Ep; cbn in E; try (injection E as _ <-; exact Ep);
    destruct (a_body ar f n v); try (injection E as _ <-; apply P); destruct ft as [|k []|k]; injection E as _ <-; apply P.
Qed.
Print Assumptions C70_file_after_write_exact.

(** The object stored before is lost by every overwriting write that does not get
    to its end, for every archive whose readers do not take files that end early:
    afterwards every read throws, also if the write reported success. *)
Definition wants_whole_files {T} (ar : archive T) : Prop :=
  (forall f n v b f' n' k, a_body ar f n v = Some b -> k < length (a_head ar f ++ b ++ a_tail ar f) ->
     a_read ar f' n' (firstn k (a_head ar f ++ b ++ a_tail ar f)) = None) /\
  (forall f f' n', a_read ar f' n' (a_head ar f) = None).
Theorem C70_interrupted_write_exact :
  forall (T : Type) (ar : archive T), wants_whole_files ar -> forall f fs n v p,
    (forall b k, a_body ar f n v = Some b -> k < length (a_head ar f ++ b ++ a_tail ar f) ->
       (exists fs1, write_file ar f fs n v p true (Dies k) = (Died, fs1) /\ forall f' n', read_file ar f' fs1 n' p = Throw) /\
       (exists fs1, write_file ar f fs n v p true (Short k true) = (Threw, fs1) /\ forall f' n', read_file ar f' fs1 n' p = Throw) /\
       (exists fs1, write_file ar f fs n v p true (Short k false) = (Returned, fs1) /\ forall f' n', read_file ar f' fs1 n' p = Throw)) /\
    (a_body ar f n v = None -> forall ft,
       exists fs1, write_file ar f fs n v p true ft = (Threw, fs1) /\ forall f' n', read_file ar f' fs1 n' p = Throw).
Proof.
  intros T ar [W1 W2] f fs n v p.
  assert (P : forall x, put fs p x p = Some x) by (intros x; unfold put; now rewrite String.eqb_refl).
  split.
  - intros b k Eb Hk. unfold write_file. cbn [negb andb]. rewrite Eb. cbv zeta.
    split; [|split]; (eexists; split; [reflexivity|]; intros f' n'; unfold read_file; rewrite P, (W1 f n v b f' n' k Eb Hk); reflexivity).
  - intros Eb ft. unfold write_file. cbn [negb andb]. rewrite Eb.
    eexists; split; [reflexivity|]; intros f' n'; unfold read_file; rewrite P, W2; reflexivity.
Qed.
Print Assumptions C70_interrupted_write_exact.

(** An archive of this kind: length-framed contents with an end mark. *)
Definition framed : archive nat := {|
  a_head := fun f => match f with XML => [60] | Binary => [22] end;
  a_body := fun f n v => match f, n with XML, EmptyString => None | _, _ => Some [v; String.length n] end;
  a_tail := fun _ => [62];
  a_read := fun f n c =>
    match f, c with
    | XML, [60; v; l; 62] => if l =? String.length n then Some v else None
    | Binary, [22; v; _; 62] => Some v
    | _, _ => None
    end |}.
Example C70_interrupted_write_nonvacuous :
  wants_whole_files framed /\ round_trip framed /\
  exists fs1, write_file framed XML (fun _ => Some [60; 7; 1; 62]) "x"%string 9 "a"%string true (Dies 3) = (Died, fs1) /\
    read_file framed XML (fun _ => Some [60; 7; 1; 62]) "x"%string "a"%string = Ok 7 /\
    read_file framed XML fs1 "x"%string "a"%string = Throw.
Proof.
  split; [|split].
  - split.
    + intros f n v b f' n' k E Hk. destruct f, n; cbn in E; try discriminate; injection E as <-;
        cbn in Hk; destruct k as [|[|[|[|k]]]]; try lia; destruct f'; cbn; try reflexivity;
        repeat match goal with |- match ?x with _ => _ end = _ => destruct x; try reflexivity end.
    + intros [] []; reflexivity.
  - intros [] n v b; cbn; [destruct n as [|c n]; [discriminate|]|]; intros [= <-]; cbn; [now rewrite Nat.eqb_refl|reflexivity].
  - eexists. split; [reflexivity|]. split; reflexivity.
Qed.
