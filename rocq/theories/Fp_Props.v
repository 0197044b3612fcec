(** C61, C62: rounding errors of products, sums and of the whole pipeline. *)
From Coq Require Import Reals Lra Lia List.
From Flocq Require Import Core.
From Verif Require Import Base BaseLemmas Dense_Model Dense_Spec Dense_Proofs Sparse_Model Sparse_Spec Dyn_Model Dyn_Spec Dyn_Proofs
  Dyn2_Proofs Conv_Spec Conv_Proofs Block_Proofs Eval_Spec Eval_Proofs Fp_Spec Fp_Proofs FpConv_Proofs Fp_Ieee.
From Verif Require Import Sparse_Props Dyn_Props.
#[local] Open Scope R_scope.

(** ** C61 *)

(** The sum of two one-part matrices: one rounding. *)
Theorem C61_sum :
  forall (F D : Type) (ar : arith F D) v fin uD uF eta, rounding ar v fin uD uF eta ->
  forall dbg a b m l va wda wfa vb wdb wfb,
    leaf_real ar v a m l va wda wfa -> leaf_real ar v b m l vb wdb wfb ->
    exists c h, bin_leaf ar Plus dbg a b = Ok c /\ rep_leaf ar c m l h /\
      forall i j, (i < m)%nat -> (j < l)%nat -> fin (h i j) ->
        Rabs (v (h i j) - (va i j + vb i j)) <= uD * (wda i j + wdb i j) + uF * (wfa i j + wfb i j).
Proof.
  intros F D ar v fin uD uF eta X dbg a b m l va wda wfa vb wdb wfb Ra Rb.
  assert (G : forall a va wda wfa, leaf_real ar v a m l va wda wfa -> approx ar v fin uD uF a m l 0 wda wfa (fun _ _ => 0) va).
  { clear - X. intros a va wda wfa (g & Rg & H). exists g. split; [exact Rg|]. intros i j Hi Hj. destruct (H i j Hi Hj) as (-> & -> & ->). split.
    - intros Hd. destruct a; cbn in *; try discriminate; auto.
      destruct Rg as (_ & _ & Hz). rewrite Hz by auto. destruct (fm_zero _ _ _ _ _ _ _ _ _ _ _ (ro_D _ _ _ _ _ _ X)) as [_ ->]. apply Rabs_R0.
    - intros Hf. unfold near, err. cbn [pow]. rewrite Rminus_diag_eq by reflexivity. rewrite Rabs_R0. pose proof (Rabs_pos (v (g i j))).
      destruct (is_f (leaf_ty a)); repeat split; try lra. }
  destruct (approx_plus ar v fin uD uF eta X dbg a b m l 0 _ _ _ _ _ _ _ _ (G _ _ _ _ Ra) (G _ _ _ _ Rb)) as (c & E & _ & h & Rc & H).
  exists c, h. split; [exact E|]. split; [exact Rc|]. intros i j Hi Hj Hf. destruct (H i j Hi Hj) as [_ N]. destruct (N Hf) as (_ & _ & _ & _ & N').
  eapply Rle_trans; [exact N'|]. unfold err. cbn [pow]. lra.
Qed.
Print Assumptions C61_sum.

(** The product of any two objects of the run-time types. *)
Theorem C61_product :
  forall (F D : Type) (ar : arith F D) v fin uD uF eta, rounding ar v fin uD uF eta ->
  forall p dbg a b m n l va wda wfa vb wdb wfb,
    dyn_real ar v a m n va wda wfa -> dyn_real ar v b n l vb wdb wfb -> fits p m n l ->
    exists c h, mul_dyn ar p dbg a b = Ok c /\ rep_leaf ar c m l h /\
      forall i j, (i < m)%nat -> (j < l)%nat -> fin (h i j) ->
        Rabs (v (h i j) - rsum n (fun q => va i q * vb q j)) <=
          err uD uF (n + 5) (SdF p n wda wfa wdb wfb i j) (SfF p n wda wfa wdb wfb i j) (EuF eta p n wda wfa wdb wfb i j).
Proof.
  intros F D ar v fin uD uF eta X p dbg a b m n l va wda wfa vb wdb wfb Ra Rb Hf.
  destruct (approx_mul_dyn ar v fin uD uF eta X p dbg a b m n l va wda wfa vb wdb wfb Ra Rb Hf) as (c & E & h & Rc & H).
  exists c, h. split; [exact E|]. split; [exact Rc|]. intros i j Hi Hj Hfi. destruct (H i j Hi Hj) as [_ N]. now destruct (N Hfi) as (_ & _ & _ & _ & N').
Qed.
Print Assumptions C61_product.

(** The block-wise product, converted to dense. *)
Theorem C61_blocked_product :
  forall (F D : Type) (ar : arith F D) v fin uD uF eta, rounding ar v fin uD uF eta ->
  forall ready p exc dbg a b rl nl cl va wda wfa vb wdb wfb,
    (forall t, In t type_list -> ready t = true) ->
    (forall I K J, I < length rl -> K < length nl -> J < length cl -> fits p (nth I rl 0) (nth K nl 0) (nth J cl 0))%nat ->
    nl <> [] ->
    blocked_real ar v a rl nl va wda wfa -> blocked_real ar v b nl cl vb wdb wfb ->
    let n := list_sum nl in
    exists c d h, mul_blocked ar ready p dbg a b = Ok c /\ dense_of_blocked ar exc dbg c = Ok d /\
      is_mat d (list_sum rl) (list_sum cl) h /\
      forall i j, (i < list_sum rl)%nat -> (j < list_sum cl)%nat -> fin (h i j) ->
        Rabs (v (h i j) - rsum n (fun q => va i q * vb q j)) <=
          err uD uF (list_max nl + length nl + 4) (SdF p n wda wfa wdb wfb i j) (SfF p n wda wfa wdb wfb i j) (EuF eta p n wda wfa wdb wfb i j).
Proof.
  intros F D ar v fin uD uF eta X ready p exc dbg a b rl nl cl va wda wfa vb wdb wfb Hready Hfit Hnl Ra Rb n.
  destruct (mul_blocked_near ar v fin uD uF eta X ready p dbg a b rl nl cl va wda wfa vb wdb wfb Hready Hfit Hnl Ra Rb)
    as (c & fc & h & Ec & U1 & U2 & Oc & Mc & Hc).
  destruct (dense_of_blocked_gen ar exc dbg c rl cl h U1 U2 Oc) as (d & Ed & Md & _).
  { exists fc. split; [exact Mc|]. intros I J HI HJ. destruct (Hc I J HI HJ) as (x & Ex & Rx & _).
    exists (DL x). split; [exact Ex|]. split; [apply lty_in|]. split; [exact Rx|exact Coq.Init.Logic.I]. }
  exists c, d, h. split; [exact Ec|]. split; [exact Ed|]. split; [exact Md|]. intros i j Hi Hj Hf.
  destruct (offs_find rl i Hi) as (I & HI & Li). destruct (offs_find cl j Hj) as (J & HJ & Lj).
  rewrite offs_S in Li, Lj by auto. destruct (Hc I J HI HJ) as (_ & _ & _ & N).
  specialize (N (i - offs rl I)%nat (j - offs cl J)%nat ltac:(lia) ltac:(lia)). cbv zeta in N.
  replace (offs rl I + (i - offs rl I))%nat with i in * by lia. replace (offs cl J + (j - offs cl J))%nat with j in * by lia.
  now destruct (N Hf) as (_ & _ & _ & _ & N').
Qed.
Print Assumptions C61_blocked_product.

(** Every one-part object stands for a real matrix. *)
Lemma leaf_has_real {F D} (ar : arith F D) v (l : leaf F D) r c g : rep_leaf ar l r c g ->
  leaf_real ar v l r c (fun i j => v (g i j)) (fun i j => if is_f (leaf_ty l) then 0 else Rabs (v (g i j)))
    (fun i j => if is_f (leaf_ty l) then Rabs (v (g i j)) else 0).
Proof. intros R. exists g. auto. Qed.

(** ** C62 *)

(** Cutting both matrices, converting every block to the type chosen for it,
    multiplying block-wise and converting back: the error consists of what the
    conversions lose and of the rounding of the product. *)
Theorem C62_pipeline_error :
  forall (F D : Type) (ar : arith F D) v fin uD uF eta, rounding ar v fin uD uF eta -> ordering ar v fin ->
  forall th, fin (sigD th) -> fin (sigF th) ->
    (forall x, fin x -> Rabs (v x) <= v (sigF th) -> fin (toD ar (toF ar x))) ->
    valid_thr ar th -> zero_limits ar th ->
  forall ready p exc dbg (A B : dense D) m n l fa fb rl nl cl (ta tb : nat -> nat -> mty),
    (forall t, In t type_list -> ready t = true) ->
    (forall I K J, I < length rl -> K < length nl -> J < length cl -> fits p (nth I rl 0) (nth K nl 0) (nth J cl 0))%nat ->
    is_mat A m n fa -> d_orient A = ColMajor -> (Z.of_nat (length (d_buf A)) < 2 ^ 63)%Z ->
    is_mat B n l fb -> d_orient B = ColMajor -> (Z.of_nat (length (d_buf B)) < 2 ^ 63)%Z ->
    partition rl m -> partition nl n -> partition cl l -> (1 <= n)%nat ->
    (forall i j, (i < m)%nat -> (j < n)%nat -> fin (fa i j)) -> (forall i j, (i < n)%nat -> (j < l)%nat -> fin (fb i j)) ->
    (* ta i j, tb i j: the type chosen for the block of element (i, j) *)
    (forall I J i j, (I < length rl)%nat -> (J < length nl)%nat -> (i < nth I rl 0)%nat -> (j < nth J nl 0)%nat ->
       first_of (respects ar th (nth I rl 0%nat) (nth J nl 0%nat) (fun i j => fa (offs rl I + i)%nat (offs nl J + j)%nat)) type_list
         (ta (offs rl I + i)%nat (offs nl J + j)%nat)) ->
    (forall I J i j, (I < length nl)%nat -> (J < length cl)%nat -> (i < nth I nl 0)%nat -> (j < nth J cl 0)%nat ->
       first_of (respects ar th (nth I nl 0%nat) (nth J cl 0%nat) (fun i j => fb (offs nl I + i)%nat (offs cl J + j)%nat)) type_list
         (tb (offs nl I + i)%nat (offs cl J + j)%nat)) ->
    let sD := v (sigD th) in let sF := v (sigF th) in
    let a i q := Rabs (v (fa i q)) in let b q j := Rabs (v (fb q j)) in
    let la i q := lost uF eta sD sF (ta i q) (a i q) in let lb q j := lost uF eta sD sF (tb q j) (b q j) in
    let da i q := mag_d (ta i q) (a i q) in let db q j := mag_d (tb q j) (b q j) in
    let ga i q := mag_f uF eta sF (ta i q) (a i q) in let gb q j := mag_f uF eta sF (tb q j) (b q j) in
    exists a' b' c d h, cut ar exc dbg th A rl nl = Ok a' /\ cut ar exc dbg th B nl cl = Ok b' /\
      mul_blocked ar ready p dbg a' b' = Ok c /\ dense_of_blocked ar exc dbg c = Ok d /\ is_mat d m l h /\
      forall i j, (i < m)%nat -> (j < l)%nat -> fin (h i j) ->
        Rabs (v (h i j) - rsum n (fun q => v (fa i q) * v (fb q j))) <=
          rsum n (fun q => la i q * b q j + a i q * lb q j + la i q * lb q j) +
          err uD uF (list_max nl + length nl + 4) (SdF p n da ga db gb i j) (SfF p n da ga db gb i j) (EuF eta p n da ga db gb i j).
Proof.
  intros F D ar v fin uD uF eta X O th FD FF SF HT ZL ready p exc dbg A B m n l fa fb rl nl cl ta tb Hr Hf MA OA LA MB OB LB P1 P2 P3 Hn FA FB TA TB.
  exact (pipeline_real ar v fin uD uF eta X O th FD FF SF ready p exc dbg A B m n l fa fb rl nl cl ta tb Hr Hf MA OA LA MB OB LB P1 P2 P3 Hn HT ZL FA FB TA TB).
Qed.
Print Assumptions C62_pipeline_error.

(** IEEE double and float with the default settings: whatever the finite
    matrices, the pipeline succeeds, and each finite element of the result is
    within this bound of the exact product; [s] is the float threshold 2^-23. *)
Lemma first_exists (p : mty -> bool) : p (TL (TD ED)) = true -> exists t, first_of p type_list t.
Proof.
  intros Hp. assert (G : forall l, existsb p l = true -> exists t, first_of p l t).
  { induction l as [|t l IH]; cbn; [discriminate|]. destruct (p t) eqn:E; cbn.
    - intros _. exists t, [], l. split; [reflexivity|]. split; [exact E|]. intros u [].
    - intros H. destruct (IH H) as (u & pre & post & -> & Pu & Hpre). exists u, (t :: pre), post. split; [reflexivity|]. split; [exact Pu|].
      intros w [<-|Hw]; auto. }
  apply G. apply existsb_exists. exists (TL (TD ED)). split; [cbn; tauto|exact Hp].
Qed.

Lemma default_first r c f : (1 <= r)%nat -> (1 <= c)%nat -> (Z.of_nat (r * c) < 2 ^ 63)%Z ->
  exists t, first_of (respects ieee default_threshold r c f) type_list t.
Proof.
  intros Hr Hc HL. apply first_exists. unfold respects, fraction_above. cbn [default_threshold occ_set].
  assert (1 <= r * c)%nat by nia.
  apply andb_true_iff. split; apply frac_le1; auto; apply count2_le.
Qed.

Lemma default_types A m n f rl nl : is_mat A m n f -> (Z.of_nat (length (d_buf A)) < 2 ^ 63)%Z -> partition rl m -> partition nl n ->
  exists ta : nat -> nat -> mty, forall I J i j, (I < length rl)%nat -> (J < length nl)%nat -> (i < nth I rl 0)%nat -> (j < nth J nl 0)%nat ->
       first_of (respects ieee default_threshold (nth I rl 0%nat) (nth J nl 0%nat) (fun i j => f (offs rl I + i)%nat (offs nl J + j)%nat)) type_list
         (ta (offs rl I + i)%nat (offs nl J + j)%nat).
Proof.
  intros [W V] HL P1 P2.
  destruct (fin_choice2 (TL TZ) (length rl) (length nl) (fun I J t => 
       first_of (respects ieee default_threshold (nth I rl 0%nat) (nth J nl 0%nat) (fun i j => f (offs rl I + i)%nat (offs nl J + j)%nat)) type_list t)) as (T & HT).
  { intros I J HI HJ. destruct (offs_block rl m I P1 HI) as [H1 H2]. destruct (offs_block nl n J P2 HJ) as [H3 H4].
    apply default_first; auto. pose proof V as (R & C & _). destruct W as (_ & _ & E). unfold d_rows, d_cols in *.
    rewrite R, C in E.
    assert (nth I rl 0 * nth J nl 0 <= m * n)%nat by (apply Nat.mul_le_mono; lia). lia. }
  destruct (glue (TL TZ) rl nl (fun I J _ _ => T I J)) as (ta & Hta). exists ta.
  intros I J i j HI HJ Hi Hj. rewrite Hta by auto. now apply HT.
Qed.

Lemma in_bound p a b c d A B : 0 <= a -> 0 <= b -> 0 <= c -> 0 <= d -> a + b <= A -> c + d <= B ->
  0 <= in_double p a b c d + in_float p a b c d <= A * B /\ 0 <= in_double p a b c d /\ 0 <= in_float p a b c d.
Proof.
  intros. rewrite in_sum. split; [split; [nra|apply Rmult_le_compat; lra]|].
  assert (0 <= a * c) by nra. assert (0 <= a * d) by nra. assert (0 <= b * c) by nra. assert (0 <= b * d) by nra.
  destruct p; cbn; lra.
Qed.

Theorem C62_default_settings :
  forall ready p exc dbg (A B : dense f64) m n l fa fb rl nl cl,
    (forall t, In t type_list -> ready t = true) ->
    (forall I K J, I < length rl -> K < length nl -> J < length cl -> fits p (nth I rl 0) (nth K nl 0) (nth J cl 0))%nat ->
    is_mat A m n fa -> d_orient A = ColMajor -> (Z.of_nat (length (d_buf A)) < 2 ^ 63)%Z ->
    is_mat B n l fb -> d_orient B = ColMajor -> (Z.of_nat (length (d_buf B)) < 2 ^ 63)%Z ->
    partition rl m -> partition nl n -> partition cl l -> (1 <= n)%nat ->
    (forall i j, (i < m)%nat -> (j < n)%nat -> finite (fa i j)) -> (forall i j, (i < n)%nat -> (j < l)%nat -> finite (fb i j)) ->
    let s := bpow radix2 (-23) in let uD := bpow radix2 (-53) in let uF := bpow radix2 (-24) in let e := bpow radix2 (-150) in
    let k := (list_max nl + length nl + 4)%nat in
    let a i q := Rabs (val (fa i q)) in let b q j := Rabs (val (fb q j)) in
    exists a' b' c d h, cut ieee exc dbg default_threshold A rl nl = Ok a' /\ cut ieee exc dbg default_threshold B nl cl = Ok b' /\
      mul_blocked ieee ready p dbg a' b' = Ok c /\ dense_of_blocked ieee exc dbg c = Ok d /\ is_mat d m l h /\
      forall i j, (i < m)%nat -> (j < l)%nat -> finite (h i j) ->
        Rabs (val (h i j) - rsum n (fun q => val (fa i q) * val (fb q j))) <=
          rsum n (fun q => s * (a i q + b q j) + s * s) +
          match p with
          | PMKL => ((1 + uF) ^ k - 1) * rsum n (fun q => (a i q + 2 * s) * (b q j + 2 * s)) +
                    (1 + uF) ^ k * (e * (4 * INR n + 2 * rsum n (fun q => a i q + 2 * s + (b q j + 2 * s))))
          | _ => ((1 + uD) ^ k - 1) * rsum n (fun q => (a i q + 2 * s) * (b q j + 2 * s)) +
                 ((1 + uF) ^ k - 1) * (INR n * (4 * (s * s))) + (1 + uF) ^ k * (4 * INR n * e)
          end.
Proof.
  intros ready p exc dbg A B m n l fa fb rl nl cl Hr Hf MA OA LA MB OB LB P1 P2 P3 Hn FA FB s uD uF e k a b.
  destruct (default_types A m n fa rl nl MA LA P1 P2) as (ta & HTA).
  destruct (default_types B n l fb nl cl MB LB P2 P3) as (tb & HTB).
  destruct default_valid as [HT ZL].
  destruct (lit_pow (-52) ltac:(lia) ltac:(lia)) as [VD FD]. destruct (lit_pow (-23) ltac:(lia) ltac:(lia)) as [VF FF].
  assert (SM : forall x, finite x -> Rabs (val x) <= val (sigF default_threshold) -> finite (toD ieee (toF ieee x))).
  { apply ieee_small. cbn [default_threshold sigF]. rewrite VF. apply bpow_le. lia. }
  destruct (C62_pipeline_error _ _ ieee val finite _ _ _ ieee_rounding ieee_ordering default_threshold FD FF SM HT ZL
    ready p exc dbg A B m n l fa fb rl nl cl ta tb Hr Hf MA OA LA MB OB LB P1 P2 P3 Hn FA FB HTA HTB)
    as (a' & b' & c & d & h & Ea & Eb & Ec & Ed & Md & Hh).
  exists a', b', c, d, h. repeat (split; [assumption|]). intros i j Hi Hj Hfi. specialize (Hh i j Hi Hj Hfi).
  cbn [default_threshold sigD sigF] in Hh. rewrite VD, VF in Hh. fold s uD uF e k in Hh.
  eapply Rle_trans; [exact Hh|]. clear Hh.
  (* sizes *)
  assert (Ps : 0 < s) by apply bpow_gt_0. assert (Pe : 0 <= e) by apply bpow_ge_0.
  assert (PuD : 0 <= uD) by apply bpow_ge_0. assert (PuF : 0 <= uF) by apply bpow_ge_0.
  assert (Pd : 0 <= bpow radix2 (-52) <= s) by (split; [apply bpow_ge_0|apply bpow_le; lia]).
  assert (Pu : uF * s + e <= s).
  { unfold uF, s, e. rewrite <- bpow_plus. assert (bpow radix2 (-24 + -23) <= bpow radix2 (-24)) by (apply bpow_le; lia).
    assert (bpow radix2 (-150) <= bpow radix2 (-24)) by (apply bpow_le; lia).
    replace (bpow radix2 (-23)) with (2 * bpow radix2 (-24)); [lra|]. change 2 with (bpow radix2 1). rewrite <- bpow_plus. reflexivity. }
  assert (HL : forall t x, 0 <= x -> 0 <= lost uF e (bpow radix2 (-52)) s t x <= s).
  { intros t x Hx. assert (M1 : 0 <= Rmin x s <= s) by (split; [apply Rmin_glb; lra|apply Rmin_r]).
    assert (M2 : 0 <= Rmin x (bpow radix2 (-52)) <= s) by (split; [apply Rmin_glb; lra|eapply Rle_trans; [apply Rmin_r|lra]]).
    assert (M3 : 0 <= uF * Rmin x s + e <= s) by (split; nra).
    unfold lost. destruct t as [[|[]|[]]|]; try lra; (split; [eapply Rle_trans; [|apply Rmax_l]; lra|apply Rmax_lub; lra]). }
  assert (HM : forall t x, 0 <= x -> 0 <= mag_d t x <= x /\ 0 <= mag_f uF e s t x <= 2 * s).
  { intros t x Hx. assert (M1 : 0 <= Rmin x s <= s) by (split; [apply Rmin_glb; lra|apply Rmin_r]).
    unfold mag_d, mag_f. split; [destruct (has_d t); lra|]. destruct (has_f t); [|lra]. split; nra. }
  assert (Pa : forall q, 0 <= a i q) by (intros; apply Rabs_pos). assert (Pb : forall q, 0 <= b q j) by (intros; apply Rabs_pos).
  apply Rplus_le_compat.
  - apply rsum_le. intros q Hq. fold (a i q) (b q j). pose proof (HL (ta i q) (a i q) (Pa q)). pose proof (HL (tb q j) (b q j) (Pb q)).
    specialize (Pa q). specialize (Pb q).
    assert (lost uF e (bpow radix2 (-52)) s (ta i q) (a i q) * b q j <= s * b q j) by (apply Rmult_le_compat_r; lra).
    assert (a i q * lost uF e (bpow radix2 (-52)) s (tb q j) (b q j) <= a i q * s) by (apply Rmult_le_compat_l; lra).
    assert (lost uF e (bpow radix2 (-52)) s (ta i q) (a i q) * lost uF e (bpow radix2 (-52)) s (tb q j) (b q j) <= s * s) by (apply Rmult_le_compat; lra).
    lra.
  - cbv beta.
    set (da := fun i q => mag_d (ta i q) (Rabs (val (fa i q)))). set (db := fun q j => mag_d (tb q j) (Rabs (val (fb q j)))).
    set (ga := fun i q => mag_f uF e s (ta i q) (Rabs (val (fa i q)))). set (gb := fun q j => mag_f uF e s (tb q j) (Rabs (val (fb q j)))).
    unfold err, SdF, SfF, EuF.
    assert (HA : forall q, 0 <= da i q <= a i q /\ 0 <= ga i q <= 2 * s) by (intros; apply HM, Pa).
    assert (HB : forall q, 0 <= db q j <= b q j /\ 0 <= gb q j <= 2 * s) by (intros; apply HM, Pb).
    pose proof (pow_ge uD k PuD) as WD. pose proof (pow_ge uF k PuF) as WF.
    assert (WDF : (1 + uD) ^ k <= (1 + uF) ^ k) by (apply pow_incr; split; [lra|]; apply Rplus_le_compat_l, bpow_le; lia).
    assert (BND : forall q, 0 <= in_double p (da i q) (ga i q) (db q j) (gb q j) + in_float p (da i q) (ga i q) (db q j) (gb q j) <= (a i q + 2 * s) * (b q j + 2 * s) /\
      0 <= in_double p (da i q) (ga i q) (db q j) (gb q j) /\ 0 <= in_float p (da i q) (ga i q) (db q j) (gb q j)).
    { intros q. destruct (HA q), (HB q). apply in_bound; lra. }
    set (Sd := rsum n (fun q => in_double p (da i q) (ga i q) (db q j) (gb q j))).
    set (Sf := rsum n (fun q => in_float p (da i q) (ga i q) (db q j) (gb q j))).
    set (T := rsum n (fun q => (a i q + 2 * s) * (b q j + 2 * s))).
    assert (PSd : 0 <= Sd) by (apply rsum_pos; intros; apply BND). assert (PSf : 0 <= Sf) by (apply rsum_pos; intros; apply BND).
    assert (LT : Sd + Sf <= T) by (unfold Sd, Sf, T; rewrite <- rsum_add; apply rsum_le; intros; apply BND).
    assert (LE : rsum n (fun q => da i q + ga i q + (db q j + gb q j)) <= rsum n (fun q => a i q + 2 * s + (b q j + 2 * s))).
    { apply rsum_le. intros q _. destruct (HA q), (HB q). lra. }
    set (G1 := rsum n (fun q => da i q + ga i q + (db q j + gb q j))) in *. set (G2 := rsum n (fun q => a i q + 2 * s + (b q j + 2 * s))) in *.
    pose proof (pos_INR n) as Pn. cbv beta.
    assert (NM : p <> PMKL -> Sf <= INR n * (4 * (s * s))).
    { intros HP. unfold Sf. rewrite <- rsum_const. apply rsum_le. intros q _. destruct (HA q), (HB q).
      replace (in_float p (da i q) (ga i q) (db q j) (gb q j)) with (ga i q * gb q j) by (destruct p; try reflexivity; congruence).
      replace (4 * (s * s)) with ((2 * s) * (2 * s)) by ring. apply Rmult_le_compat; lra. }
    assert (CASE : p = PMKL \/ p <> PMKL) by (destruct p; auto; right; discriminate).
    destruct CASE as [->|HP].
    + cbn [mkl]. assert (E1 : ((1 + uD) ^ k - 1) * Sd <= ((1 + uF) ^ k - 1) * Sd) by (apply Rmult_le_compat_r; lra).
      assert (E2 : ((1 + uF) ^ k - 1) * (Sd + Sf) <= ((1 + uF) ^ k - 1) * T) by (apply Rmult_le_compat_l; lra).
      assert (E3 : (1 + uF) ^ k * (e * (4 * INR n + 2 * 1 * G1)) <= (1 + uF) ^ k * (e * (4 * INR n + 2 * G2))).
      { apply Rmult_le_compat_l; [lra|]. apply Rmult_le_compat_l; lra. }
      lra.
    + assert (E1 : ((1 + uD) ^ k - 1) * Sd <= ((1 + uD) ^ k - 1) * T) by (apply Rmult_le_compat_l; lra).
      assert (E2 : ((1 + uF) ^ k - 1) * Sf <= ((1 + uF) ^ k - 1) * (INR n * (4 * (s * s)))) by (apply Rmult_le_compat_l; [lra|auto]).
      replace (mkl p) with 0 by (destruct p; try reflexivity; congruence).
      replace ((1 + uF) ^ k * (e * (4 * INR n + 2 * 0 * G1))) with ((1 + uF) ^ k * (4 * INR n * e)) by ring.
      destruct p; try congruence; lra.
Qed.
Print Assumptions C62_default_settings.

(** A 2x2 matrix of a large, a small and a tiny element and 1, cut into rows
    1+1: all hypotheses hold and the result is finite. *)
Definition demoI_f (i j : nat) : f64 :=
  match i, j with 0, 0 => lit 3 40 | 0, _ => lit (-5) (-30) | _, 0 => lit 7 (-60) | _, _ => lit 1 0 end%nat.
Definition demoI : dense f64 := mkDense (own_shape ColMajor 2 2) 4 (map Some [demoI_f 0 0; demoI_f 1 0; demoI_f 0 1; demoI_f 1 1]) true.
Lemma demoI_mat : is_mat demoI 2 2 demoI_f.
Proof.
  split; [repeat split; reflexivity|]. split; [reflexivity|]. split; [reflexivity|].
  intros [|[|i]] [|[|j]] Hi Hj; try lia; reflexivity.
Qed.
Example C62_nonvacuous :
  is_mat demoI 2 2 demoI_f /\ d_orient demoI = ColMajor /\ partition [1; 1]%nat 2 /\ partition [2]%nat 2 /\
  (forall i j, (i < 2)%nat -> (j < 2)%nat -> finite (demoI_f i j)) /\
  (do a <- cut ieee true true default_threshold demoI [1; 1]%nat [2]%nat; do b <- cut ieee true true default_threshold demoI [2]%nat [2]%nat;
   do c <- mul_blocked ieee (fun _ => true) PNative true a b; do d <- dense_of_blocked ieee true true c;
   do x <- dget true d 0 0; Ok (BinarySingleNaN.B2SF x)) = Ok (SpecFloat.S754_finite false 5066549580791808 31)%Z.
Proof.
  split; [exact demoI_mat|]. split; [reflexivity|]. split; [split; [reflexivity|repeat constructor]|].
  split; [split; [reflexivity|repeat constructor]|]. split.
  { intros [|[|i]] [|[|j]] Hi Hj; try lia; vm_compute; reflexivity. }
  vm_compute. reflexivity.
Qed.
Example C61_nonvacuous :
  rounding ieee val finite (bpow radix2 (-53)) (bpow radix2 (-24)) (bpow radix2 (-150)) /\
  dyn_real ieee val (DL (LDd demoI)) 2 2 (fun i j => val (demoI_f i j)) (fun i j => Rabs (val (demoI_f i j))) (fun _ _ => 0) /\
  leaf_real ieee val (LDd demoI) 2 2 (fun i j => val (demoI_f i j)) (fun i j => Rabs (val (demoI_f i j))) (fun _ _ => 0) /\
  fits PNative 2 2 2.
Proof.
  assert (L : leaf_real ieee val (LDd demoI) 2 2 (fun i j => val (demoI_f i j)) (fun i j => Rabs (val (demoI_f i j))) (fun _ _ => 0)).
  { exists demoI_f. split; [split; [reflexivity|exact demoI_mat]|]. intros i j _ _. repeat split. }
  split; [exact ieee_rounding|]. split; [exact L|]. split; [exact L|exact Coq.Init.Logic.I].
Qed.

(** The assumptions of C34_loss hold for IEEE numbers and the default settings. *)
Lemma zero_B2R (p e : Z) (x : BinarySingleNaN.binary_float p e) s : x = BinarySingleNaN.B754_zero s ->
  BinarySingleNaN.is_finite x = true /\ BinarySingleNaN.B2R x = 0.
Proof. intros ->. split; reflexivity. Qed.
Lemma ieee_comparable : comparable ieee default_threshold.
Proof.
  destruct (lit_pow (-52) ltac:(lia) ltac:(lia)) as [VD FD]. destruct (lit_pow (-23) ltac:(lia) ltac:(lia)) as [VF FF].
  destruct (lit_pow (-1074) ltac:(lia) ltac:(lia)) as [V0 F0].
  destruct ieee_ordering as [OA OLT OLE OF].
  assert (LT : forall t x, finite t -> finite x -> (ltD ieee t (absD ieee x) = true <-> val t < Rabs (val x))).
  { intros t x Ht Hx. destruct (OA x Hx) as [F1 <-]. now apply OLT. }
  assert (LE : forall t x, finite t -> finite x -> (leD ieee (absD ieee x) t = true <-> Rabs (val x) <= val t)).
  { intros t x Ht Hx. destruct (OA x Hx) as [F1 <-]. now apply OLE. }
  assert (S1 : val (sigD default_threshold) = bpow radix2 (-52)) by exact VD.
  assert (S2 : val (sigF default_threshold) = bpow radix2 (-23)) by exact VF.
  assert (B1 : 0 < bpow radix2 (-52)) by apply bpow_gt_0.
  assert (Z0 : val (d0 ieee) = 0) by reflexivity.
  assert (NF : forall P : bool, P = true -> P = false -> False) by (intros P -> H; discriminate H).
  constructor.
  - reflexivity.
  - intros x H. destruct x as [s|s| |s m e B]; try reflexivity.
    exfalso. apply LT in H; [|exact FF|reflexivity]. rewrite S2 in H. unfold val in H. cbn in H. rewrite Rabs_R0 in H. pose proof (bpow_gt_0 radix2 (-23)). cbn in *. lra.
  - intros x H1 H2. destruct (toD ieee (toF ieee x)) as [s|s| |s m e B] eqn:E; try reflexivity.
    exfalso. destruct (zero_B2R _ _ _ _ E) as [E1 E2]. cbn [ieee toD toF] in E1, E2.
    rewrite (proj1 (promote_ok _)) in E1. rewrite (proj2 (promote_ok _)) in E2.
    destruct (bcv_fin 53 1024 24 128 prec24 emax128 x E1) as [Fx Rx]. unfold demote in E2. rewrite E2 in Rx.
    apply LT in H1; [|exact FD|exact Fx]. rewrite S1 in H1.
    assert (G : bpow radix2 (-52) <= Rabs (round radix2 (FLT_exp (3 - 128 - 24) 24) (BinarySingleNaN.round_mode BinarySingleNaN.mode_NE) (BinarySingleNaN.B2R x))).
    { apply abs_round_ge_generic; [apply FLT_exp_valid; reflexivity|apply valid_rnd_N|apply generic_format_bpow; cbn; lia|]. unfold val in H1. lra. }
    rewrite <- Rx, Rabs_R0 in G. lra.
  - reflexivity.
  - intros x H1 H2. destruct x as [s|s| |s m e B]; [|discriminate H2|discriminate H1|]; (apply LE; [exact FF|reflexivity|]).
    all: apply Rnot_lt_le; intros H; apply LT in H; [now apply (NF _ H H2)|exact FF|reflexivity].
  - intros x H. destruct x as [s|s| |s m e B]; try reflexivity.
    + exfalso. apply LT in H; [|exact FF|reflexivity]. rewrite S2 in H. unfold val in H. cbn in H. rewrite Rabs_R0 in H. cbn in *. lra.
    + match goal with |- ?b = false => destruct b eqn:E; [exfalso|reflexivity] end.
      apply LT in H; [|exact FF|reflexivity]. apply LE in E; [|exact FF|reflexivity]. lra.
  - intros x H. match goal with |- ?b = false => destruct b eqn:E; [exfalso|reflexivity] end.
    destruct x as [s|s| |s m e B]; [|discriminate H|discriminate E|]; (apply LT in E; [|exact FD|reflexivity]);
      (apply (NF _) in H; [exact H|]); apply LT; try exact Z0; try reflexivity; rewrite S1 in E; rewrite Z0; lra.
  - exact OF.
Qed.

(** So with the default settings every element of a converted IEEE block is
    unchanged, or 0 if not above 2^-52, or rounded if not above 2^-23, unless
    the block becomes Matrix<Sparse,double>. *)
Theorem C34_default_ieee :
  forall exc dbg (m : dense f64) r c f t,
    col_source m -> view m r c f -> full_ok m -> (Z.of_nat (r * c) < 2 ^ 63)%Z ->
    first_of (respects ieee default_threshold r c f) type_list t -> sh_sub (d_sh m) = true \/ t <> TM (TS ED) (TD EF) ->
    exists d g, convert ieee exc dbg default_threshold m = Ok d /\ dyn_ty d = t /\ rep ieee d r c g /\
      forall i j, (i < r)%nat -> (j < c)%nat ->
        (t <> TL (TS ED) -> loss_ok ieee default_threshold (f i j) (g i j)) /\
        (t = TL (TS ED) -> g i j = f i j \/ ltD ieee (sigF default_threshold) (absD ieee (f i j)) = false /\ g i j = d0 ieee).
Proof.
  intros exc dbg m r c f t HS HV HF HL Ht Hsub. destruct default_valid as [HT ZL].
  exact (C34_loss _ _ ieee exc dbg default_threshold m r c f t HS HV HF HL HT ieee_comparable ZL Ht Hsub).
Qed.
Print Assumptions C34_default_ieee.

(** With the default settings some type is always chosen: the converter never
    refuses a non-empty IEEE block, whatever its elements (NaN and infinities
    included). *)
Theorem C33_default_settings_total :
  forall exc dbg (m : dense f64) r c f,
    col_source m -> view m r c f -> full_ok m -> (1 <= r)%nat -> (1 <= c)%nat -> (Z.of_nat (r * c) < 2 ^ 63)%Z ->
    exists d, convert ieee exc dbg default_threshold m = Ok d /\
      first_of (respects ieee default_threshold r c f) type_list (dyn_ty d).
Proof.
  intros exc dbg m r c f HS HV HF Hr Hc HL. destruct (default_first r c f Hr Hc HL) as (t & Ht).
  destruct default_valid as [HT (Z1 & Z2 & _)].
  destruct (C34_conversion_elementwise _ _ ieee exc dbg default_threshold m r c f t HS HV HF HT ltac:(red; congruence) Ht) as (d & E & T & _).
  exists d. split; [exact E|]. now rewrite T.
Qed.
Print Assumptions C33_default_settings_total.
