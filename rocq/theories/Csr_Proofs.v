(** The compressed-row product computed for two equally oriented square matrices. *)
From Verif Require Import Base BaseLemmas Dense_Model Dense_Spec Dense_Proofs Dense2_Proofs
  Sparse_Model Sparse_Spec Sparse_Proofs Sparse2_Proofs Sparse3_Proofs Mult_Model Mult_Spec Mult_Proofs Mult2_Proofs Mult3_Proofs
  Csr_Model Csr_Spec.
From Coq Require Import Sorting.Sorted.

Definition up_key := map (option_map (fun k => to_int (S k))).
Definition one_based {T} (e : nat * T) : Z * T := (Z.of_nat (S (fst e)), snd e).
Definition as_csr {T} (s : sparse T) : csr T := mkCsr (s_val s) (up_key (s_key s)) (up_key (s_off s)).

Lemma csr_row_lines {T} (s : sparse T) L n i :
  repr s L -> lines_ok n L -> i < length L ->
  (Z.of_nat n < 2 ^ 31)%Z -> (Z.of_nat (S (length (concat L))) < 2 ^ 31)%Z ->
  csr_row (as_csr s) i = Ok (map one_based (nth i L [])).
Proof.
  intros HR HO Hi Bn BL. unfold csr_row, as_csr. cbn [c_ptr c_indx c_val].
  assert (Hoff : forall i, i <= length L -> rd (up_key (s_off s)) i = Ok (Z.of_nat (S (start L i)))).
  { intros p Hp. rewrite <- to_int_small by (pose proof (start_le L p); lia).
    apply (rd_map_opt (fun k => to_int (S k))). now apply (repr_off s L HR). }
  rewrite !Hoff by lia. cbn [bind].
  assert (Hn : nth_error L i = Some (nth i L [])) by (now apply nth_error_nth').
  rewrite (start_S L i _ Hn).
  replace (Z.to_nat (Z.of_nat (S (start L i + length (nth i L []))) - Z.of_nat (S (start L i)))) with (length (nth i L [])) by lia.
  apply mapM_seq_nth. intros q [k x] Hq. rewrite Nat.add_0_l.
  assert (Hk : k < n).
  { destruct (line_ok_nth n L i HO) as [_ HF]. eapply Forall_forall in HF; [exact HF|]. apply in_map_iff. exists (k, x). split; auto.
    eapply nth_error_In; eauto. }
  replace (Z.of_nat (S (start L i)) - 1 + Z.of_nat q)%Z with (Z.of_nat (start L i + q)) by lia.
  rewrite !rdz_nat. erewrite (rd_map_opt (fun k => to_int (S k)) (s_key s)) by (apply (repr_key s L HR i _ q k x Hn Hq)). cbn [bind].
  rewrite (repr_val s L HR i _ q k x Hn Hq). cbn [bind]. rewrite to_int_small by lia. reflexivity.
Qed.

(** The terms of one row. *)
Definition pairs_of {T} (n : nat) (LA LB : list (list (nat * T))) (l k : nat) : list (T * T) :=
  meets n (fun l q => lk q (nth l LA [])) (fun q k => lk k (nth q LB [])) l k.
Definition nonempty {A} (l : list A) : bool := match l with [] => false | _ => true end.
Definition res_line {T} (dot : list (T * T) -> T) n LA LB l : list (nat * T) :=
  mkl dot nonempty (pairs_of n LA LB) n l.

Lemma filter_map_swap {A B} (f : A -> B) (p : B -> bool) l : filter p (map f l) = map f (filter (fun x => p (f x)) l).
Proof. induction l as [|x t IH]; simpl; auto. destruct (p (f x)); simpl; now rewrite IH. Qed.

Lemma filter_flat_map {A B} (f : A -> list B) (p : B -> bool) l : filter p (flat_map f l) = flat_map (fun x => filter p (f x)) l.
Proof. induction l as [|x t IH]; simpl; auto. now rewrite filter_app, IH. Qed.

Lemma flat_map_of_map {A B C} (h : A -> B) (f : B -> list C) l : flat_map f (map h l) = flat_map (fun x => f (h x)) l.
Proof. induction l as [|x t IH]; simpl; auto. now rewrite IH. Qed.

Lemma filter_lk {T} k (line : list (nat * T)) : NoDup (map fst line) ->
  filter (fun e => fst e =? k) line = match lk k line with Some v => [(k, v)] | None => [] end.
Proof.
  induction line as [|[k' v'] t IH]; intros HN; [reflexivity|]. cbn [map fst] in HN. inversion HN; subst.
  rewrite lk_cons. cbn [filter fst]. destruct (Nat.eqb_spec k' k) as [->|].
  - f_equal. rewrite IH by auto. rewrite lk_None; auto.
  - now apply IH.
Qed.

Lemma csr_prod_row_gen {T} (dot : list (T * T) -> T) (a b : sparse T) LA LB n l n' k' i :
  repr a LA -> lines_ok n LA -> repr b LB -> lines_ok l LB -> length LB = n -> i < length LA ->
  (Z.of_nat n < 2 ^ 31)%Z -> (Z.of_nat l < 2 ^ 31)%Z ->
  (Z.of_nat (S (length (concat LA))) < 2 ^ 31)%Z -> (Z.of_nat (S (length (concat LB))) < 2 ^ 31)%Z ->
  (forall q x, In (q, x) (nth i LA []) -> q < n') ->
  (forall q x k y, In (q, x) (nth i LA []) -> In (k, y) (nth q LB []) -> k < k') ->
  csr_prod_row dot n' k' (as_csr a) (as_csr b) i = Ok (map one_based (mkl dot nonempty (pairs_of n LA LB) k' i)).
Proof.
  intros HRa HOa HRb HOb HLb Hi Bn Bl Ba Bb Hq' Hk'.
  unfold csr_prod_row. rewrite (csr_row_lines a LA n i) by (auto; lia). cbn [bind].
  rewrite (mapM_ok _ (fun e : Z * T => map (fun t : nat * T => (Z.of_nat (S (fst t)), (snd e, snd t))) (nth (Z.to_nat (fst e - 1)) LB []))).
  2:{ intros e He. apply in_map_iff in He as ([q x] & <- & Hin). unfold one_based. cbn [fst snd].
      assert (Hq : q < n).
      { destruct (line_ok_nth n LA i HOa) as [_ HF]. eapply Forall_forall in HF; [exact HF|]. apply in_map_iff. exists (q, x). auto. }
      pose proof (Hq' q x Hin).
      destruct (Z.ltb_spec (Z.of_nat (S q)) 1); [lia|]. destruct (Z.ltb_spec (Z.of_nat n') (Z.of_nat (S q))); [lia|]. cbn [orb].
      replace (Z.to_nat (Z.of_nat (S q) - 1)) with q by lia.
      rewrite (csr_row_lines b LB l q) by (auto; lia). cbn [bind].
      rewrite (mapM_ok _ (fun e : Z * T => (fst e, (x, snd e)))).
      - rewrite map_map. reflexivity.
      - intros e He. apply in_map_iff in He as ([k y] & <- & Hin'). unfold one_based. cbn [fst snd].
        assert (Hk : k < k') by (eapply Hk'; eauto).
        destruct (Z.ltb_spec (Z.of_nat (S k)) 1); [lia|]. destruct (Z.ltb_spec (Z.of_nat k') (Z.of_nat (S k))); [lia|]. reflexivity. }
  cbn [bind]. f_equal. unfold mkl. rewrite map_flat_map, <- seq_shift.
  rewrite flat_map_of_map.
  apply flat_map_ext_in. intros k Hk. apply in_seq in Hk.
  assert (E : map snd (filter (fun t => (fst t =? Z.of_nat (S k))%Z)
      (concat (map (fun e : Z * T => map (fun t : nat * T => (Z.of_nat (S (fst t)), (snd e, snd t))) (nth (Z.to_nat (fst e - 1)) LB []))
         (map one_based (nth i LA []))))) = pairs_of n LA LB i k).
  { rewrite map_map, <- flat_map_concat_map, filter_flat_map, map_flat_map. unfold pairs_of, meets.
    rewrite (line_sorted_list n (nth i LA []) (line_ok_nth n LA i HOa)) at 1.
    rewrite (flat_map_concat_map _ (flat_map _ _)), flat_map_concat_map, concat_map, map_map, <- flat_map_concat_map.
    assert (G : forall (X Y Z0 : Type) (h : Y -> list Z0) (f : X -> list Y) l, concat (flat_map (fun x => map h (f x)) l) = flat_map (fun x => flat_map h (f x)) l).
    { clear. intros X Y Z0 h f l. induction l as [|x t IH]; simpl; auto. rewrite concat_app, IH. f_equal. symmetry. apply flat_map_concat_map. }
    rewrite G. apply flat_map_ext_in. intros q Hq. apply in_seq in Hq.
    destruct (lk q (nth i LA [])) as [x|]; [|reflexivity]. cbn [flat_map one_based fst snd]. rewrite app_nil_r.
    replace (Z.to_nat (Z.of_nat (S q) - 1)) with q by lia.
    rewrite filter_map_swap, map_map. cbn [fst snd].
    rewrite (filter_ext _ (fun e : nat * T => fst e =? k)).
    2:{ intros [k0 y]. cbn [fst]. destruct (Z.eqb_spec (Z.of_nat (S k0)) (Z.of_nat (S k))), (Nat.eqb_spec k0 k); auto; lia. }
    rewrite filter_lk. 2:{ apply SSorted_NoDup. eapply line_ok_nth; eauto. }
    destruct (lk k (nth q LB [])); reflexivity. }
  rewrite E. destruct (pairs_of n LA LB i k); reflexivity.
Qed.

Lemma line_key_lt {T} n (L : list (list (nat * T))) i k x : lines_ok n L -> In (k, x) (nth i L []) -> k < n.
Proof.
  intros HO Hin. destruct (line_ok_nth n L i HO) as [_ HF]. eapply Forall_forall in HF; [exact HF|].
  apply in_map_iff. exists (k, x). auto.
Qed.

Lemma csr_prod_row_lines {T} (dot : list (T * T) -> T) (a b : sparse T) LA LB n i :
  repr a LA -> lines_ok n LA -> length LA = n -> repr b LB -> lines_ok n LB -> length LB = n -> i < n ->
  (Z.of_nat n < 2 ^ 31)%Z -> (Z.of_nat (S (n * n)) < 2 ^ 31)%Z ->
  csr_prod_row dot n n (as_csr a) (as_csr b) i = Ok (map one_based (res_line dot n LA LB i)).
Proof.
  intros HRa HOa HLa HRb HOb HLb Hi Bn Bnn.
  assert (Ba : length (concat LA) <= n * n) by (rewrite <- HLa at 1; now apply lines_len).
  assert (Bb : length (concat LB) <= n * n) by (rewrite <- HLb at 1; now apply lines_len).
  apply (csr_prod_row_gen dot a b LA LB n n n n i); auto; try lia.
  - intros q x Hin. exact (line_key_lt n LA i q x HOa Hin).
  - intros q x k y _ Hin. exact (line_key_lt n LB q k y HOb Hin).
Qed.

(** ** The two calls *)
Section Calls.
Context {T : Type} (dot : list (T * T) -> T) (xa xb : csr T) (n dn dk N : nat) (LC : nat -> list (nat * T)).
Hypothesis Hrow : forall i, i < n -> csr_prod_row dot dn dk xa xb i = Ok (map one_based (LC i)).
Let LL := map LC (seq 0 n).

Lemma LL_len : length LL = n.
Proof. unfold LL. now rewrite map_length, seq_length. Qed.
Lemma LL_nth m : m < n -> nth_error LL m = Some (LC m).
Proof. intros Hm. unfold LL. rewrite nth_error_map, nth_error_seq. destruct (Nat.ltb_spec m n); [reflexivity|lia]. Qed.
Lemma LL_first m : m < n -> concat (firstn (S m) LL) = concat (firstn m LL) ++ LC m.
Proof.
  intros Hm. rewrite <- concat_snoc. f_equal. pose proof (LL_nth m Hm) as E.
  apply nth_error_split in E as (l1 & l2 & E1 & E2). rewrite E1, <- E2.
  rewrite !firstn_app, firstn_all, Nat.sub_diag, firstn_O, app_nil_r.
  rewrite firstn_all2 by lia. replace (S (length l1) - length l1) with 1 by lia. reflexivity.
Qed.

Lemma call1 (ic : buf Z) : length ic = n + 1 ->
  csrmultcsr1 dot n dn dk xa xb ic = Ok (map (fun i => Some (Z.of_nat (S (start LL i)))) (seq 0 (n + 1))).
Proof.
  intros Hlen. unfold csrmultcsr1.
  set (h := fun i => Z.of_nat (S (start LL i))).
  destruct (filled_push h [] ic (n + 1) 0) as (ic1 & E1 & F1).
  { split; auto. exists ic. reflexivity. }
  { simpl. lia. }
  cbn [length] in E1. change (h 0) with 1%Z in E1. rewrite E1. cbn [bind app] in *.
  destruct (forM_inv (fun i ic =>
    do r <- csr_prod_row dot dn dk xa xb i;
    do p <- rd ic i;
    wr ic (S i) (p + Z.of_nat (length r))%Z) (fun m ic => filled h (seq 0 (S m)) ic (n + 1)) n ic1) as (ic' & E & F).
  - exact F1.
  - intros m x Hm F. rewrite Hrow by auto. cbn [bind].
    assert (Er : rd x m = Ok (h m)).
    { destruct F as (_ & tl & ->). apply rd_map_some. rewrite nth_error_seq. destruct (Nat.ltb_spec m (S m)); [reflexivity|lia]. }
    rewrite Er. cbn [bind]. rewrite map_length.
    replace (h m + Z.of_nat (length (LC m)))%Z with (h (S m)).
    2:{ unfold h. rewrite (start_S LL m _ (LL_nth m Hm)). lia. }
    destruct (filled_push h (seq 0 (S m)) x (n + 1) (S m) F) as (x' & E' & F').
    { rewrite seq_length. lia. }
    rewrite seq_length in E'. exists x'. split; [exact E'|]. rewrite (seq_S (S m)). exact F'.
  - rewrite E. f_equal. destruct F as (HM & tl & ->). rewrite app_length, map_length, seq_length in HM.
    destruct tl; [|simpl in HM; lia]. rewrite app_nil_r. replace (n + 1) with (S n) by lia. reflexivity.
Qed.

Definition put (p : Z) := fun '(t, (j, x)) '(c, jc) =>
      do c <- wr c (Z.to_nat (p - 1) + t) x;
      do jc <- wr jc (Z.to_nat (p - 1) + t) j;
      @Ok (buf T * buf Z) (c, jc).

Lemma put_line (p : Z) : forall (line E : list (nat * T)) (c : buf T) (jc : buf Z) s,
  filled snd E c N -> filled (fun e => Z.of_nat (S (fst e))) E jc N -> length E + length line <= N ->
  length E = Z.to_nat (p - 1) + s ->
  exists c' jc', foldM (put p) (combine (seq s (length line)) (map one_based line)) (c, jc) = Ok (c', jc') /\
    filled snd (E ++ line) c' N /\ filled (fun e => Z.of_nat (S (fst e))) (E ++ line) jc' N.
Proof.
  induction line as [|e t IH]; intros E c jc s Hc Hj HN HE.
  - exists c, jc. rewrite app_nil_r. auto.
  - cbn [length seq map combine foldM]. cbn [length] in HN.
    destruct (filled_push snd E c N e Hc) as (c1 & E1 & F1); [lia|].
    destruct (filled_push (fun e => Z.of_nat (S (fst e))) E jc N e Hj) as (j1 & E2 & F2); [lia|].
    unfold put at 1, one_based at 1. rewrite <- HE, E1. cbn [bind]. rewrite E2. cbn [bind].
    destruct (IH (E ++ [e]) c1 j1 (S s) F1 F2) as (c' & jc' & E3 & F3 & F4).
    { rewrite app_length; simpl; lia. }
    { rewrite app_length; simpl; lia. }
    exists c', jc'. rewrite <- app_assoc in F3, F4. auto.
Qed.

Lemma call2 (ic : buf Z) (c : buf T) (jc : buf Z) :
  (forall i, i < n -> rd ic i = Ok (Z.of_nat (S (start LL i)))) -> length c = N -> length jc = N -> length (concat LL) <= N ->
  exists c' jc', csrmultcsr2 dot n dn dk xa xb ic (c, jc) = Ok (c', jc') /\
    filled snd (concat LL) c' N /\ filled (fun e => Z.of_nat (S (fst e))) (concat LL) jc' N.
Proof.
  intros Hic Hc Hj HN. unfold csrmultcsr2.
  destruct (forM_inv (fun i st =>
    do r <- csr_prod_row dot dn dk xa xb i;
    do p <- rd ic i;
    foldM (put p) (enum r) st) (fun m st => filled snd (concat (firstn m LL)) (fst st) N /\
        filled (fun e => Z.of_nat (S (fst e))) (concat (firstn m LL)) (snd st) N) n (c, jc)) as ([c' jc'] & E & F1 & F2).
  - cbn [firstn concat fst snd]. split; split; auto; eexists; reflexivity.
  - intros m [c1 j1] Hm (F1 & F2). cbn [fst snd] in *. rewrite Hrow by auto. cbn [bind]. rewrite Hic by auto. cbn [bind].
    destruct (put_line (Z.of_nat (S (start LL m))) (LC m) (concat (firstn m LL)) c1 j1 0 F1 F2) as (c' & j' & E & F3 & F4).
    { rewrite <- app_length, <- LL_first by auto. change (start LL (S m) <= N). pose proof (start_le LL (S m)). lia. }
    { unfold start. lia. }
    exists (c', j'). unfold enum. rewrite map_length. split; [exact E|]. cbn [fst snd]. rewrite LL_first by auto. auto.
  - cbn [fst snd] in *. rewrite firstn_all2 in F1, F2 by (rewrite LL_len; lia). exists c', jc'. auto.
Qed.
End Calls.

Lemma mul_csrmultcsr_lines {T} (dot : list (T * T) -> T) dbg (a b c : sparse T) n fa fb :
  sp_mat a n n fa -> sp_mat b n n fb -> s_o a = s_o c -> s_o b = s_o c -> (Z.of_nat (S (n * n)) < 2 ^ 31)%Z ->
  exists s, mul_csrmultcsr dot dbg a b c = Ok s /\ s_o s = s_o c /\ s_nnz s = n * n /\
    sp_mat s n n (match s_o c with
                  | RowMajor => meets_at dot n fa fb
                  | ColMajor => fun i j => match flat_map (fun q => match fa q j, fb i q with Some x, Some y => [(x, y)] | _, _ => [] end) (seq 0 n)
                                           with [] => None | ps => Some (dot ps) end
                  end).
Proof.
  intros Ha Hb Oa Ob Bnn.
  assert (Bn : (Z.of_nat n < 2 ^ 31)%Z) by nia.
  apply sp_mat_lines in Ha as (Ra & Ca & _ & LA & HRa & HLa & HOa & HDa).
  apply sp_mat_lines in Hb as (Rb & Cb & _ & LB & HRb & HLb & HOb & HDb).
  assert (Mi : s_minor a = n) by (unfold s_minor; destruct (s_o a); auto).
  assert (Ma : s_major a = n) by (unfold s_major; destruct (s_o a); auto).
  assert (Mib : s_minor b = n) by (unfold s_minor; destruct (s_o b); auto).
  assert (Mab : s_major b = n) by (unfold s_major; destruct (s_o b); auto).
  rewrite Mi in HLa. rewrite Ma in HOa. rewrite Mib in HLb. rewrite Mab in HOb.
  unfold mul_csrmultcsr, cassert. rewrite Ca, Rb, Nat.eqb_refl, andb_false_r. cbn [bind]. rewrite Ra, Cb.
  set (c0 := s_resize c n n 0).
  assert (Hlen0 : forall X (x : buf X) (n : nat), length (@st_resize X x n) = n).
  { intros X x k. unfold st_resize. destruct (Nat.eqb_spec (length x) k); auto. unfold alloc. now rewrite repeat_length. }
  assert (Hval : length (s_val c0) = n * n) by (unfold c0; simpl; apply Hlen0).
  assert (Hkey : length (s_key c0) = n * n) by (unfold c0; simpl; apply Hlen0).
  assert (Hoff : length (s_off c0) = n + 1) by (unfold c0; simpl; apply Hlen0).
  rewrite !to_int_small by auto. rewrite !Nat2Z.id. cbv zeta.
  change (mkCsr (s_val a) (map _ (s_key a)) (map _ (s_off a))) with (as_csr a).
  change (mkCsr (s_val b) (map _ (s_key b)) (map _ (s_off b))) with (as_csr b).
  set (LC := res_line dot n LA LB).
  assert (Hrow : forall i, i < n -> csr_prod_row dot n n (as_csr a) (as_csr b) i = Ok (map one_based (LC i))).
  { intros i Hi. apply csr_prod_row_lines; auto. }
  assert (HLC : forall i, line_ok n (LC i)) by (intros; apply mkl_ok).
  set (LL := map LC (seq 0 n)).
  assert (HlenL : length LL = n) by (unfold LL; now rewrite map_length, seq_length).
  assert (HOL : lines_ok n LL).
  { apply Forall_forall. intros x Hx. unfold LL in Hx. apply in_map_iff in Hx as (i & <- & _). apply HLC. }
  rewrite (call1 dot (as_csr a) (as_csr b) n n n LC Hrow). 2:{ unfold alloc. rewrite repeat_length. exact Hoff. }
  cbn [bind]. fold LL.
  set (ic := map (fun i => Some (Z.of_nat (S (start LL i)))) (seq 0 (n + 1))).
  destruct (call2 dot (as_csr a) (as_csr b) n n n (n * n) LC Hrow ic (s_val c0) (alloc (length (s_key c0)))) as (cv & jc & E & F1 & F2).
  { intros i Hi. apply rd_ok. unfold ic. rewrite nth_error_map, nth_error_seq. destruct (Nat.ltb_spec i (n + 1)); [reflexivity|lia]. }
  { exact Hval. }
  { unfold alloc. rewrite repeat_length. exact Hkey. }
  { fold LL. rewrite <- HlenL at 1. now apply lines_len. }
  fold LL in F1, F2. rewrite E. cbn [bind fst snd].
  eexists. split; [reflexivity|]. split; [reflexivity|]. split; [apply F1|].
  apply sp_mat_lines. split; [reflexivity|]. split; [reflexivity|]. split; [reflexivity|].
  exists LL. split; [|split; [|split]].
  - apply repr_intro; cbn [s_off s_key s_val].
    + unfold ic. rewrite map_map, psum_start, HlenL, map_map. replace (n + 1) with (S n) by lia. apply map_ext. intros i.
      cbn [option_map]. f_equal. lia.
    + rewrite map_length. destruct F1 as (-> & _). destruct F2 as (-> & _). reflexivity.
    + exists (n * n). exact F1.
    + destruct F2 as (Hl & tl & ->). eexists. split; [reflexivity|].
      exists (map (option_map (fun z => Z.to_nat (z - 1))) tl). rewrite map_app, map_map. f_equal. apply map_ext.
      intros e. cbn [option_map]. f_equal. lia.
  - unfold s_minor. cbn [s_o s_rows s_cols]. rewrite HlenL. destruct (s_o c0); reflexivity.
  - unfold s_major. cbn [s_o s_rows s_cols]. change (lines_ok (match s_o c with RowMajor => n | ColMajor => n end) LL). destruct (s_o c); exact HOL.
  - intros i j Hi Hj. cbn [s_rows s_cols] in Hi, Hj. change (s_rows c0) with n in Hi. change (s_cols c0) with n in Hj.
    unfold line_of, key_of. cbn [s_o]. change (s_o c0) with (s_o c).
    assert (Hnth : forall l, l < n -> nth l LL [] = LC l).
    { intros l Hl. apply nth_error_nth. unfold LL. rewrite nth_error_map, nth_error_seq. destruct (Nat.ltb_spec l n); [reflexivity|lia]. }
    destruct (s_o c).
    + rewrite Hnth by auto. unfold LC, res_line. rewrite mkl_lk by auto.
      unfold meets_at. assert (EP : pairs_of n LA LB i j = meets n fa fb i j).
      { unfold pairs_of, meets. apply flat_map_ext_in. intros q Hq. apply in_seq in Hq.
        rewrite (HDa i q), (HDb q j) by lia. unfold line_of, key_of. rewrite Oa, Ob. reflexivity. }
      rewrite EP. destruct (meets n fa fb i j); reflexivity.
    + rewrite Hnth by auto. unfold LC, res_line. rewrite mkl_lk by auto.
      assert (EP : pairs_of n LA LB j i = flat_map (fun q => match fa q j, fb i q with Some x, Some y => [(x, y)] | _, _ => [] end) (seq 0 n)).
      { unfold pairs_of, meets. apply flat_map_ext_in. intros q Hq. apply in_seq in Hq.
        rewrite (HDa q j), (HDb i q) by lia. unfold line_of, key_of. rewrite Oa, Ob. reflexivity. }
      rewrite EP. destruct (flat_map _ _); reflexivity.
Qed.
