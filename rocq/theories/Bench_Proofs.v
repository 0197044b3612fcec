(** Proofs about the Eigen and Blaze back ends and the benchmark's actions. *)
From Verif Require Import Base BaseLemmas Dense_Model Dense_Spec Dense_Proofs Dense2_Proofs Sparse_Model
  Mult_Model Mult_Spec Mult_Proofs Mult2_Proofs Mult3_Proofs Dyn_Model Norm_Model Tools_Model Bench_Model.

Lemma view_product_spec {T1 T2 T3} (dot : list (T1 * T2) -> T3) (a : dense T1) (b : dense T2) (c0 : dense T3) m n l fa fb :
  is_mat a m n fa -> d_orient a = ColMajor -> is_mat b n l fb -> d_orient b = ColMajor ->
  wf_mem c0 -> d_rows c0 = m -> d_cols c0 = l -> full_ok c0 -> d_orient c0 = ColMajor -> d_own c0 = true ->
  exists b', view_product dot m n l n (d_buf a) (d_buf b) (d_buf c0) = Ok b' /\
    is_mat (with_buf c0 b') m l (fun i j => dot (map (fun k => (fa i k, fb k j)) (seq 0 n))) /\
    full_ok (with_buf c0 b') /\ d_orient (with_buf c0 b') = ColMajor /\ d_own (with_buf c0 b') = true.
Proof.
  intros [Wa Va] Oa [Wb Vb] Ob W0 R0 C0 F0 O0 N0. pose proof Va as (Ra & Ca & _). pose proof Vb as (Rb & Cb & _).
  destruct (col_store c0 m l (fun i j => do ps <- mapM (fun q =>
            do x <- rd (d_buf a) (i + q * m); do y <- rd (d_buf b) (q + j * n); Ok (x, y)) (seq 0 n); Ok (dot ps))
     (fun i j => dot (map (fun k => (fa i k, fb k j)) (seq 0 n))) (map (fun p => (snd p, fst p)) (pairs l m)))
    as (b' & E & M & FU & O & N); auto.
  - apply NoDup_map_inj; [apply NoDup_pairs|]. intros [x y] [x' y'] _ _ E. now inversion E.
  - intros i j. rewrite in_map_iff. split.
    + intros ([x y] & E & Hin). apply in_pairs in Hin. cbn [fst snd] in E. injection E as <- <-. lia.
    + intros [Hi Hj]. exists (j, i). split; auto. apply in_pairs. lia.
  - intros i j Hi Hj. rewrite (mapM_ok _ (fun q => (fa i q, fb q j))); [reflexivity|].
    intros q Hq. apply in_seq in Hq.
    pose proof (view_cell a m n fa i q Va Hi ltac:(lia)) as E1. rewrite (col_addr a) in E1 by auto.
    destruct Wa as (_ & Ba & _). rewrite Ba, Ra in E1. apply rd_ok in E1. rewrite Nat.add_0_l in E1. rewrite E1. cbn [bind].
    pose proof (view_cell b n l fb q j Vb ltac:(lia) Hj) as E2. rewrite (col_addr b) in E2 by auto.
    destruct Wb as (_ & Bb & _). rewrite Bb, Rb in E2. apply rd_ok in E2. rewrite Nat.add_0_l in E2. rewrite E2. reflexivity.
  - exists b'. split; [|auto]. unfold view_product.
    rewrite forM2_pairs. rewrite foldM_map in E. rewrite <- E.
    apply foldM_ext. intros [j i] s _. cbn [fst snd]. rewrite bind_assoc. reflexivity.
Qed.

Section Mul.
Context {T1 T2 T3 : Type} (dot : list (T1 * T2) -> T3).

Lemma mul_eigen_spec dbg (a : dense T1) (b : dense T2) (c : dense T3) m n l fa fb :
  is_mat a m n fa -> d_orient a = ColMajor -> is_mat b n l fb -> d_orient b = ColMajor ->
  fresh_ok c -> d_orient c = ColMajor ->
  exists d, mul_eigen dot dbg a b c = Ok d /\
    is_mat d m l (fun i j => dot (map (fun k => (fa i k, fb k j)) (seq 0 n))) /\
    full_ok d /\ d_orient d = ColMajor /\ d_own d = true.
Proof.
  intros Ma Oa Mb Ob Hf Oc. pose proof Ma as [_ (Ra & Ca & _)]. pose proof Mb as [_ (Rb & Cb & _)].
  unfold mul_eigen, cassert. rewrite Ca, Rb, Nat.eqb_refl, andb_false_r. cbn [bind].
  destruct (resize_shape c (d_rows a) (d_cols b) Hf) as (c0 & E0 & W0 & R0 & C0 & F0 & O0 & N0).
  rewrite E0, Ra, Cb in *. rewrite Oc in O0.
  destruct (view_product_spec dot a b c0 m n l fa fb) as (b' & E & H); auto. rewrite E. cbn [bind]. eauto.
Qed.

Lemma mul_blaze_spec u1 u2 u3 s1 s2 s3 dbg (a : dense T1) (b : dense T2) (c : dense T3) m n l fa fb :
  is_mat a m n fa -> d_orient a = ColMajor -> is_mat b n l fb -> d_orient b = ColMajor ->
  fresh_ok c -> d_orient c = ColMajor ->
  u1 a = true -> u2 b = true -> (forall d, d_own d = true -> length (d_buf d) = m * l -> u3 d = true) ->
  m mod s1 = 0 -> n mod s2 = 0 -> m mod s3 = 0 ->
  exists d, mul_blaze u1 u2 u3 s1 s2 s3 dot dbg a b c = Ok d /\
    is_mat d m l (fun i j => dot (map (fun k => (fa i k, fb k j)) (seq 0 n))) /\
    full_ok d /\ d_orient d = ColMajor /\ d_own d = true.
Proof.
  intros Ma Oa Mb Ob Hf Oc U1 U2 U3 H1 H2 H3. pose proof Ma as [_ (Ra & Ca & _)]. pose proof Mb as [_ (Rb & Cb & _)].
  unfold mul_blaze, cassert, blaze_view. rewrite Ca, Rb, Nat.eqb_refl, andb_false_r. cbn [bind negb].
  destruct (resize_shape c (d_rows a) (d_cols b) Hf) as (c0 & E0 & W0 & R0 & C0 & F0 & O0 & N0).
  rewrite E0, Ra, Cb in *. rewrite Oc in O0. rewrite U1, U2, R0, H1, H2, H3. cbn [Nat.eqb andb bind].
  rewrite U3; [|exact N0|destruct W0 as (_ & _ & ->); now rewrite R0, C0]. cbn [andb bind].
  destruct (view_product_spec dot a b c0 m n l fa fb) as (b' & E & H); auto. rewrite E. cbn [bind]. eauto.
Qed.

Lemma mul_blaze_rejects u1 u2 u3 s1 s2 s3 dbg (a : dense T1) (b : dense T2) (c : dense T3) :
  d_cols a = d_rows b -> fresh_ok c ->
  d_rows a mod s1 <> 0 \/ d_rows b mod s2 <> 0 \/ d_rows a mod s3 <> 0 ->
  mul_blaze u1 u2 u3 s1 s2 s3 dot dbg a b c = Throw.
Proof.
  intros E Hf H. unfold mul_blaze, cassert, blaze_view. rewrite E, Nat.eqb_refl, andb_false_r. cbn [bind negb].
  destruct (resize_shape c (d_rows a) (d_cols b) Hf) as (c0 & E0 & W0 & R0 & C0 & F0 & O0 & N0).
  rewrite E0, R0.
  destruct (Nat.eqb_spec (d_rows a mod s1) 0) as [E1|N1]; rewrite ?andb_false_r; [|reflexivity].
  destruct (u1 a); cbn [andb bind]; [|reflexivity].
  destruct (Nat.eqb_spec (d_rows b mod s2) 0) as [E2|N2]; rewrite ?andb_false_r; [|reflexivity].
  destruct (u2 b); cbn [andb bind]; [|reflexivity].
  destruct (Nat.eqb_spec (d_rows a mod s3) 0) as [E3|N3]; rewrite ?andb_false_r; [|reflexivity].
  exfalso. tauto.
Qed.
End Mul.

(** Repeating: a body that always gives an acceptable result from any acceptable
    start. *)
Lemma bench_it_spec {T} (body : dense T -> res (dense T)) (P : dense T -> Prop) (start : dense T -> Prop) n s :
  1 <= n -> start s -> (forall d, start d -> exists e, body d = Ok e /\ P e) -> (forall d, P d -> start d) ->
  exists e, bench_it n body s = Ok e /\ P e.
Proof.
  intros Hn Hs HB HP. destruct n as [|n]; [lia|]. unfold bench_it, forM. clear Hn.
  generalize 0 as k. revert s Hs. induction n as [|n IH]; intros s Hs k.
  - destruct (HB s Hs) as (e & E & He). cbn [seq foldM]. rewrite E. cbn [bind]. eauto.
  - destruct (HB s Hs) as (e & E & He). cbn [seq foldM]. rewrite E. cbn [bind]. apply (IH e (HP e He) (S k)).
Qed.
