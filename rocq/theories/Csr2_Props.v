(** C78, rectangular row-major operands: the second of the two MKL calls receives
    the number of columns of A and of B in exchanged positions.  The call goes
    through exactly when that does no harm. *)
From Verif Require Import Base BaseLemmas Dense_Model Dense_Spec Dense_Proofs Sparse_Model Sparse_Spec Sparse_Proofs
  Sparse2_Proofs Sparse3_Proofs Mult_Model Mult_Spec Mult_Proofs Mult2_Proofs Mult3_Proofs Csr_Model Csr_Spec Csr_Proofs Csr_Props.

Lemma mkl_cut {T U} (cv : T -> U) (chk : T -> bool) (g : nat -> nat -> T) l k1 k2 : k1 <= k2 ->
  (forall k, k1 <= k -> k < k2 -> chk (g l k) = false) ->
  mkl cv chk g k1 l = mkl cv chk g k2 l.
Proof.
  intros Hle H. unfold mkl. replace k2 with (k1 + (k2 - k1)) by lia. rewrite seq_app, flat_map_app, Nat.add_0_l.
  rewrite (flat_map_concat_map _ (seq k1 (k2 - k1))), (map_ext_in _ (fun _ => [])).
  - assert (E : forall s n, concat (map (fun _ : nat => @nil (nat * U)) (seq s n)) = []).
    { intros s n. revert s. induction n; simpl; auto. }
    now rewrite E, app_nil_r.
  - intros k Hk. apply in_seq in Hk. rewrite H by lia. reflexivity.
Qed.

Lemma lk_In {T} k (line : list (nat * T)) v : lk k line = Some v -> In (k, v) line.
Proof.
  induction line as [|[k' v'] t IH]; [discriminate|]. rewrite lk_cons. destruct (Nat.eqb_spec k' k) as [->|].
  - intros E. injection E as ->. now left.
  - intros E. right. auto.
Qed.

Lemma In_lk {T} n k (line : list (nat * T)) v : line_ok n line -> In (k, v) line -> lk k line = Some v.
Proof.
  intros [HS _] Hin. apply SSorted_NoDup in HS. revert HS Hin.
  induction line as [|[k' v'] t IH]; intros HN Hin; [contradiction|]. cbn [map fst] in HN. inversion HN; subst.
  rewrite lk_cons. destruct (Nat.eqb_spec k' k) as [->|Hne].
  - destruct Hin as [E|Hin]; [now injection E as ->|].
    exfalso. apply H1. apply in_map_iff. exists (k, v). auto.
  - destruct Hin as [E|Hin]; [injection E as -> ->; now elim Hne|auto].
Qed.

(** The call goes through ... *)
Theorem C78_row_major_rectangular :
  forall (T : Type) (dot : list (T * T) -> T) dbg (a b c : sparse T) m n fa fb,
    sp_mat a m n fa -> sp_mat b n m fb -> s_o a = RowMajor -> s_o b = RowMajor -> s_o c = RowMajor ->
    (Z.of_nat (S (m * n)) < 2 ^ 31)%Z -> (Z.of_nat (S (m * m)) < 2 ^ 31)%Z -> (Z.of_nat n < 2 ^ 31)%Z ->
    (forall i q, i < m -> q < n -> fa i q <> None -> q < m) ->
    (forall i q j, i < m -> q < n -> j < m -> fa i q <> None -> fb q j <> None -> j < n) ->
    exists s, mul_csrmultcsr dot dbg a b c = Ok s /\ s_o s = RowMajor /\ s_nnz s = m * m /\
      sp_mat s m m (meets_at dot n fa fb).
Proof.
  intros T dot dbg a b c m n fa fb Ha Hb Oa Ob Oc Bmn Bmm Bn HA HB.
  assert (Bm : (Z.of_nat m < 2 ^ 31)%Z) by nia.
  apply sp_mat_lines in Ha as (Ra & Ca & _ & LA & HRa & HLa & HOa & HDa).
  apply sp_mat_lines in Hb as (Rb & Cb & _ & LB & HRb & HLb & HOb & HDb).
  unfold s_minor in HLa, HLb. unfold s_major in HOa, HOb. unfold denotes, line_of, key_of in HDa, HDb.
  rewrite Oa, Ra, Ca in *. rewrite Ob, Rb, Cb in *.
  unfold mul_csrmultcsr, cassert. rewrite Ca, Rb, Nat.eqb_refl, andb_false_r. cbn [bind]. rewrite Ra, Cb.
  set (c0 := s_resize c m m 0).
  assert (Hlen0 : forall X (x : buf X) (n : nat), length (@st_resize X x n) = n).
  { intros X x k. unfold st_resize. destruct (Nat.eqb_spec (length x) k); auto. unfold alloc. rewrite repeat_length. reflexivity. }
  assert (Hval : length (s_val c0) = m * m) by (unfold c0; simpl; apply Hlen0).
  assert (Hkey : length (s_key c0) = m * m) by (unfold c0; simpl; apply Hlen0).
  assert (Hoff : length (s_off c0) = m + 1) by (unfold c0; simpl; apply Hlen0).
  rewrite !to_int_small by auto. rewrite !Nat2Z.id. cbv zeta.
  change (mkCsr (s_val a) (map _ (s_key a)) (map _ (s_off a))) with (as_csr a).
  change (mkCsr (s_val b) (map _ (s_key b)) (map _ (s_off b))) with (as_csr b).
  assert (Ba : length (concat LA) <= m * n) by (rewrite <- HLa; apply lines_len; exact HOa).
  assert (Bb : length (concat LB) <= m * n) by (rewrite <- HLb, Nat.mul_comm; apply lines_len; exact HOb).
  assert (Hfa : forall i q x, i < m -> In (q, x) (nth i LA []) -> q < n /\ fa i q = Some x).
  { intros i q x Hi Hin. assert (Hq : q < n) by (eapply line_key_lt; eauto). split; auto.
    rewrite HDa by auto. eapply In_lk; [|exact Hin]. exact (line_ok_nth _ _ _ HOa). }
  assert (Hfb : forall q j x, q < n -> In (j, x) (nth q LB []) -> j < m /\ fb q j = Some x).
  { intros i q x Hi Hin. assert (Hq : q < m) by (eapply line_key_lt; eauto). split; auto.
    rewrite HDb by auto. eapply In_lk; [|exact Hin]. exact (line_ok_nth _ _ _ HOb). }
  set (LC := mkl dot nonempty (pairs_of n LA LB) m).
  assert (Hrow1 : forall i, i < m -> csr_prod_row dot n m (as_csr a) (as_csr b) i = Ok (map one_based (LC i))).
  { intros i Hi. apply (csr_prod_row_gen dot a b LA LB n m); auto; try lia.
    - intros q x Hin. exact (proj1 (Hfa i q x Hi Hin)).
    - intros q x k y Hin Hin'. apply Hfa in Hin as [Hq _]; auto. exact (proj1 (Hfb q k y Hq Hin')). }
  assert (Hpairs : forall i k, i < m -> n <= k \/ m <= k -> pairs_of n LA LB i k = []).
  { intros i k Hi Hk. unfold pairs_of, meets.
    assert (E : forall q, In q (seq 0 n) -> (match lk q (nth i LA []), lk k (nth q LB []) with Some x, Some y => [(x, y)] | _, _ => [] end) = []).
    { intros q Hq. apply in_seq in Hq. destruct (lk q (nth i LA [])) as [x|] eqn:E1; [|reflexivity].
      destruct (lk k (nth q LB [])) as [y|] eqn:E2; [|reflexivity]. exfalso.
      apply lk_In in E1, E2. apply Hfa in E1 as (_ & E1); auto. apply Hfb in E2 as (Hj & E2); [|lia].
      assert (k < n) by (apply (HB i q k); auto; try lia; congruence). lia. }
    rewrite flat_map_concat_map, (map_ext_in _ (fun _ => []) _ E).
    generalize (seq 0 n) as l. induction l; simpl; auto. }
  assert (Hrow2 : forall i, i < m -> csr_prod_row dot m n (as_csr a) (as_csr b) i = Ok (map one_based (LC i))).
  { intros i Hi. replace (LC i) with (mkl dot nonempty (pairs_of n LA LB) n i).
    - apply (csr_prod_row_gen dot a b LA LB n m); auto; try lia.
      + intros q x Hin. apply Hfa in Hin as (Hq & E); auto. apply (HA i q); auto. congruence.
      + intros q x k y Hin Hin'. apply Hfa in Hin as [Hq E]; auto. apply Hfb in Hin' as [Hk E']; auto.
        apply (HB i q k); auto; congruence.
    - unfold LC. destruct (Nat.le_ge_cases n m) as [H|H].
      + apply mkl_cut; auto. intros k H1 H2. rewrite Hpairs by auto. reflexivity.
      + symmetry. apply mkl_cut; auto. intros k H1 H2. rewrite Hpairs by auto. reflexivity. }
  assert (HLC : forall i, line_ok m (LC i)) by (intros; apply mkl_ok).
  set (LL := map LC (seq 0 m)).
  assert (HlenL : length LL = m) by (unfold LL; rewrite map_length, seq_length; reflexivity).
  assert (HOL : lines_ok m LL).
  { apply Forall_forall. intros x Hx. unfold LL in Hx. apply in_map_iff in Hx as (i & <- & _). apply HLC. }
  rewrite (call1 dot (as_csr a) (as_csr b) m n m LC Hrow1). 2:{ unfold alloc. rewrite repeat_length. exact Hoff. }
  cbn [bind]. fold LL.
  set (ic := map (fun i => Some (Z.of_nat (S (start LL i)))) (seq 0 (m + 1))).
  destruct (call2 dot (as_csr a) (as_csr b) m m n (m * m) LC Hrow2 ic (s_val c0) (alloc (length (s_key c0)))) as (cv & jc & E & F1 & F2).
  { intros i Hi. apply rd_ok. unfold ic. rewrite nth_error_map, nth_error_seq. destruct (Nat.ltb_spec i (m + 1)); [reflexivity|lia]. }
  { exact Hval. }
  { unfold alloc. rewrite repeat_length. exact Hkey. }
  { fold LL. rewrite <- HlenL at 1. apply lines_len. exact HOL. }
  fold LL in F1, F2. rewrite E. cbn [bind fst snd].
  eexists. split; [reflexivity|]. split; [exact Oc|]. split; [apply F1|].
  apply sp_mat_lines. split; [reflexivity|]. split; [reflexivity|]. split; [reflexivity|].
  exists LL. split; [|split; [|split]].
  - apply repr_intro; cbn [s_off s_key s_val].
    + unfold ic. rewrite map_map, psum_start, HlenL, map_map. replace (m + 1) with (S m) by lia. apply map_ext. intros i.
      cbn [option_map]. f_equal. lia.
    + rewrite map_length. destruct F1 as (-> & _). destruct F2 as (-> & _). reflexivity.
    + exists (m * m). exact F1.
    + destruct F2 as (Hl & tl & ->). eexists. split; [reflexivity|].
      exists (map (option_map (fun z => Z.to_nat (z - 1))) tl). rewrite map_app, map_map. f_equal. apply map_ext.
      intros e. cbn [option_map]. f_equal. lia.
  - unfold s_minor. cbn [s_o s_rows s_cols]. rewrite HlenL. destruct (s_o c0); reflexivity.
  - unfold s_major. cbn [s_o s_rows s_cols]. change (lines_ok (match s_o c with RowMajor => m | ColMajor => m end) LL). destruct (s_o c); exact HOL.
  - intros i j Hi Hj. cbn [s_rows s_cols] in Hi, Hj. change (s_rows c0) with m in Hi. change (s_cols c0) with m in Hj.
    unfold line_of, key_of. cbn [s_o]. change (s_o c0) with (s_o c). rewrite Oc.
    rewrite (nth_error_nth LL i [] (x := LC i)).
    2:{ unfold LL. rewrite nth_error_map, nth_error_seq. destruct (Nat.ltb_spec i m); [reflexivity|lia]. }
    unfold LC. rewrite mkl_lk by auto.
    unfold meets_at. assert (EP : pairs_of n LA LB i j = meets n fa fb i j).
    { unfold pairs_of, meets. apply flat_map_ext_in. intros q Hq. apply in_seq in Hq.
      rewrite (HDa i q), (HDb q j) by lia. reflexivity. }
    rewrite EP. destruct (meets n fa fb i j); reflexivity.
Qed.
Print Assumptions C78_row_major_rectangular.

(** ... and these conditions are needed, whatever the shape of the result. *)
Lemma mapM_ok_in {A B} (f : A -> res B) l r x : mapM f l = Ok r -> In x l -> exists y, f x = Ok y.
Proof.
  revert r. induction l as [|z t IH]; intros r E Hin; [contradiction|]. simpl in E.
  apply bind_ok in E as (y & E1 & E). apply bind_ok in E as (ys & E2 & _).
  destruct Hin as [->|Hin]; eauto.
Qed.

Lemma forM_ok_each {S} n (f : nat -> S -> res S) s s' i :
  forM n f s = Ok s' -> i < n -> exists x y, f i x = Ok y.
Proof.
  revert s'. induction n as [|n IH]; intros s' E Hi; [lia|].
  rewrite forM_S in E. apply bind_ok in E as (s1 & E1 & E2).
  destruct (Nat.eq_dec i n) as [->|]; [eauto|]. apply (IH s1); auto. lia.
Qed.

Lemma mul_csr_rows {T} (dot : list (T * T) -> T) dbg (a b c s : sparse T) i :
  (Z.of_nat (s_rows a) < 2 ^ 31)%Z -> (Z.of_nat (s_cols a) < 2 ^ 31)%Z -> (Z.of_nat (s_cols b) < 2 ^ 31)%Z ->
  mul_csrmultcsr dot dbg a b c = Ok s -> i < s_rows a ->
  exists r, csr_prod_row dot (s_cols b) (s_cols a) (as_csr a) (as_csr b) i = Ok r.
Proof.
  intros B1 B2 B3 E Hi. unfold mul_csrmultcsr in E. apply bind_ok in E as (u & _ & E). cbv zeta in E.
  apply bind_ok in E as (ic & _ & E). apply bind_ok in E as (st & E2 & _).
  rewrite !to_int_small, !Nat2Z.id in E2 by auto. unfold csrmultcsr2 in E2.
  apply forM_ok_each with (i := i) in E2 as (x & y & E2); [|exact Hi]. apply bind_ok in E2 as (r & E2 & _).
  exists r. exact E2.
Qed.

Lemma csr_prod_row_need {T} (dot : list (T * T) -> T) (a b : sparse T) LA LB n l n' k' i q x r :
  repr a LA -> lines_ok n LA -> repr b LB -> lines_ok l LB -> length LB = n -> i < length LA ->
  (Z.of_nat n < 2 ^ 31)%Z -> (Z.of_nat l < 2 ^ 31)%Z ->
  (Z.of_nat (S (length (concat LA))) < 2 ^ 31)%Z -> (Z.of_nat (S (length (concat LB))) < 2 ^ 31)%Z ->
  csr_prod_row dot n' k' (as_csr a) (as_csr b) i = Ok r -> In (q, x) (nth i LA []) ->
  q < n' /\ forall k y, In (k, y) (nth q LB []) -> k < k'.
Proof.
  intros HRa HOa HRb HOb HLb Hi Bn Bl Ba Bb E Hin. unfold csr_prod_row in E.
  rewrite (csr_row_lines a LA n i) in E by auto. cbn [bind] in E. apply bind_ok in E as (ts & E & _).
  assert (Hq : q < n) by (eapply line_key_lt; eauto).
  apply mapM_ok_in with (x := one_based (q, x)) in E as (y & E).
  2:{ apply in_map. assumption. }
  unfold one_based in E. cbn [fst snd] in E.
  destruct (Z.ltb_spec (Z.of_nat (S q)) 1); [lia|]. destruct (Z.ltb_spec (Z.of_nat n') (Z.of_nat (S q))) as [|H1]; [discriminate|].
  cbn [orb] in E. split; [lia|]. intros k z Hin'.
  replace (Z.to_nat (Z.of_nat (S q) - 1)) with q in E by lia.
  rewrite (csr_row_lines b LB l q) in E by (auto; lia). cbn [bind] in E.
  apply mapM_ok_in with (x := one_based (k, z)) in E as (w & E).
  2:{ apply in_map. assumption. }
  unfold one_based in E. cbn [fst snd] in E.
  destruct (Z.ltb_spec (Z.of_nat (S k)) 1); [lia|]. destruct (Z.ltb_spec (Z.of_nat k') (Z.of_nat (S k))); [discriminate|]. lia.
Qed.

Theorem C78_exchanged_dimensions_refuted :
  forall (T : Type) (dot : list (T * T) -> T) dbg (a b c : sparse T) m n l fa fb i q,
    sp_mat a m n fa -> sp_mat b n l fb -> s_o a = RowMajor -> s_o b = RowMajor ->
    (Z.of_nat m < 2 ^ 31)%Z -> (Z.of_nat n < 2 ^ 31)%Z -> (Z.of_nat l < 2 ^ 31)%Z ->
    (Z.of_nat (S (m * n)) < 2 ^ 31)%Z -> (Z.of_nat (S (n * l)) < 2 ^ 31)%Z ->
    i < m -> q < n -> fa i q <> None ->
    l <= q \/ (exists j, j < l /\ n <= j /\ fb q j <> None) ->
    forall s, mul_csrmultcsr dot dbg a b c <> Ok s.
Proof.
  intros T dot dbg a b c m n l fa fb i q Ha Hb Oa Ob Bm Bn Bl Bmn Bnl Hi Hq HA H s E.
  apply sp_mat_lines in Ha as (Ra & Ca & _ & LA & HRa & HLa & HOa & HDa).
  apply sp_mat_lines in Hb as (Rb & Cb & _ & LB & HRb & HLb & HOb & HDb).
  unfold s_minor in HLa, HLb. unfold s_major in HOa, HOb. unfold denotes, line_of, key_of in HDa, HDb.
  rewrite Oa, Ra, Ca in *. rewrite Ob, Rb, Cb in *.
  assert (Ba : length (concat LA) <= m * n) by (rewrite <- HLa; apply lines_len; exact HOa).
  assert (Bb : length (concat LB) <= n * l) by (rewrite <- HLb; apply lines_len; exact HOb).
  apply mul_csr_rows with (i := i) in E as (r & E); try congruence. rewrite Ca, Cb in E.
  destruct (fa i q) as [x|] eqn:Ex; [|elim HA; reflexivity]. rewrite HDa in Ex by auto. apply lk_In in Ex.
  destruct (csr_prod_row_need dot a b LA LB n l l n i q x r) as (H1 & H2); auto; try lia.
  destruct H as [H|(j & Hj & Hj' & HB)]; [lia|].
  destruct (fb q j) as [y|] eqn:Ey; [|elim HB; reflexivity]. rewrite HDb in Ey by auto. apply lk_In in Ey.
  apply H2 in Ey. lia.
Qed.
Print Assumptions C78_exchanged_dimensions_refuted.

(** ** Examples *)
(** A = [[1 2 0][0 3 0]] (2x3, third column empty), B = [[4 0][5 6][7 8]]. *)
Definition recA : sparse Z := mkSparse RowMajor 2 3 6 (map Some [1; 2; 3]%Z) (map Some [0; 1; 1]) (map Some [0; 2; 3]).
Definition recB : sparse Z := mkSparse RowMajor 3 2 6 (map Some [4; 5; 6; 7; 8]%Z) (map Some [0; 0; 1; 0; 1]) (map Some [0; 1; 3; 5]).
Definition recA_f (i j : nat) : option Z :=
  match i, j with 0, 0 => Some 1%Z | 0, 1 => Some 2%Z | 1, 1 => Some 3%Z | _, _ => None end.
Definition recB_f (i j : nat) : option Z :=
  match i, j with 0, 0 => Some 4%Z | 1, 0 => Some 5%Z | 1, 1 => Some 6%Z | 2, 0 => Some 7%Z | 2, 1 => Some 8%Z | _, _ => None end.
Lemma recA_mat : sp_mat recA 2 3 recA_f.
Proof.
  apply sp_mat_lines. split; [reflexivity|split; [reflexivity|split; [reflexivity|]]].
  exists [[(0, 1%Z); (1, 2%Z)]; [(1, 3%Z)]]. split; [|split; [reflexivity|split]].
  - split; [reflexivity|]. exists [], []. repeat split.
  - repeat constructor.
  - intros [|[|i]] [|[|[|j]]] Hi Hj; cbn in Hi, Hj; try lia; reflexivity.
Qed.
Lemma recB_mat : sp_mat recB 3 2 recB_f.
Proof.
  apply sp_mat_lines. split; [reflexivity|split; [reflexivity|split; [reflexivity|]]].
  exists [[(0, 4%Z)]; [(0, 5%Z); (1, 6%Z)]; [(0, 7%Z); (1, 8%Z)]]. split; [|split; [reflexivity|split]].
  - split; [reflexivity|]. exists [], []. repeat split.
  - repeat constructor.
  - intros [|[|[|i]]] [|[|j]] Hi Hj; cbn in Hi, Hj; try lia; reflexivity.
Qed.
Example C78_rectangular_nonvacuous :
  (forall i q, i < 2 -> q < 3 -> recA_f i q <> None -> q < 2) /\
  (forall i q j, i < 2 -> q < 3 -> j < 2 -> recA_f i q <> None -> recB_f q j <> None -> j < 3) /\
  mul_csrmultcsr ring_dot true recA recB (s_default RowMajor)
  = Ok (mkSparse RowMajor 2 2 4 (map Some [14; 12; 15; 18]%Z) (map Some [0; 1; 0; 1]) (map Some [0; 2; 4])).
Proof.
  split; [|split].
  - intros [|[|i]] [|[|[|q]]] Hi Hq H; cbn in *; try lia; now elim H.
  - intros. lia.
  - vm_compute. reflexivity.
Qed.

(** With an element in A's third column, or a 2x1 times 1x2 product reaching B's
    second column, the call does not go through. *)
Example C78_exchanged_dimensions_nonvacuous :
  mul_csrmultcsr ring_dot true
    (mkSparse RowMajor 2 3 6 (map Some [1; 3]%Z) (map Some [0; 2]) (map Some [0; 1; 2])) recB (s_default RowMajor) = UB OOBRead /\
  mul_csrmultcsr ring_dot true
    (mkSparse RowMajor 2 1 2 (map Some [1; 2]%Z) (map Some [0; 0]) (map Some [0; 1; 2]))
    (mkSparse RowMajor 1 2 2 (map Some [3; 4]%Z) (map Some [0; 1]) (map Some [0; 2])) (s_default RowMajor) = UB OOBWrite.
Proof. split; vm_compute; reflexivity. Qed.
