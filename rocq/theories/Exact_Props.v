(** Exact characterisations (dense matrices, windows, striped ranges, nested
    lists).  Dense_Props.v shows by an example that a property fails outside its
    stated domain; the theorems here say, for every input outside that domain,
    what the code does instead, and so where exactly the property ends. *)
From Verif Require Import Base BaseLemmas Dense_Model Dense_Spec Dense_Proofs Striped_Proofs
  Dense2_Proofs Dense3_Proofs Dense_Props.

(** A step that fails with [e] makes the whole loop fail with [e], provided all
    steps either succeed or fail with [e]. *)
Lemma foldM_fails {X S} (f : X -> S -> res S) (Inv : S -> Prop) u l : forall s,
  Inv s ->
  (forall x s, In x l -> Inv s -> (exists s', f x s = Ok s' /\ Inv s') \/ f x s = UB u) ->
  (exists x, In x l /\ forall s, Inv s -> f x s = UB u) ->
  foldM f l s = UB u.
Proof.
  induction l as [|x t IH]; intros s Hs Hall (y & Hy & Hf); [destruct Hy|]. cbn [foldM].
  destruct (Hall x s (or_introl eq_refl) Hs) as [(s' & E & Hs')|E].
  - destruct Hy as [<- | Hy]; [rewrite (Hf s Hs) in E; discriminate|].
    rewrite E; cbn [bind]. apply IH; auto.
    + intros z s2 Hz. apply Hall. now right.
    + now exists y.
  - now rewrite E.
Qed.

Lemma foldM_ok_or {X S} (f : X -> S -> res S) (Inv : S -> Prop) u l : forall s,
  Inv s ->
  (forall x s, In x l -> Inv s -> (exists s', f x s = Ok s' /\ Inv s') \/ f x s = UB u) ->
  (exists s', foldM f l s = Ok s' /\ Inv s') \/ foldM f l s = UB u.
Proof.
  induction l as [|x t IH]; intros s Hs Hall; cbn [foldM]; [left; now exists s|].
  destruct (Hall x s (or_introl eq_refl) Hs) as [(s' & E & Hs')|E]; rewrite E; cbn [bind]; auto.
  apply IH; auto. intros z s2 Hz. apply Hall. now right.
Qed.

(** C06.  A write through the matrix is seen by every window of it, at the one
    element that names the same position, and nowhere else. *)
Theorem C06_write_seen_through_windows :
  forall (T : Type) (p : dense T) r c f dbg i j v nr nc br bc,
    is_mat p r c f -> inside p nr nc br bc -> i < r -> j < c ->
    exists p', dset dbg p i j v = Ok p' /\
      view (d_window p' nr nc br bc) nr nc
        (fun i' j' => if (br + i' =? i) && (bc + j' =? j) then v else f (br + i') (bc + j')).
Proof.
  intros T p r c f dbg i j v nr nc br bc M In Hi Hj. pose proof M as [W V].
  pose proof V as (Hr & Hc & _).
  destruct (C06_write_changes_one_element T p dbg i j v) as (p' & E & R & C & _ & G & O & _).
  { now apply legal_own. } { lia. } { lia. }
  exists p'. split; [exact E|].
  assert (Hb : exists b, p' = with_buf p b /\ length b = length (d_buf p)).
  { rewrite dset_in in E by lia. unfold wr, wrc in E.
    destruct (addr (d_sh p) i j <? length (d_buf p)); cbn in E; [|discriminate].
    injection E as <-. eexists; split; [reflexivity|]. now rewrite upd_length. }
  destruct Hb as (b & -> & Lb).
  assert (M' : is_mat (with_buf p b) r c (fun i' j' => if (i' =? i) && (j' =? j) then v else f i' j')).
  { split; [now apply with_buf_wf|]. split; [exact Hr|]. split; [exact Hc|]. intros i' j' Hi' Hj'.
    destruct (Nat.eqb_spec i' i); destruct (Nat.eqb_spec j' j); cbn [andb]; try subst i'; try subst j'.
    - apply G.
    - rewrite O by (try lia; intros [= ]; lia). apply (view_dget p r c f true i j' V); lia.
    - rewrite O by (try lia; intros [= ]; lia). apply (view_dget p r c f true i' j V); lia.
    - rewrite O by (try lia; intros [= ]; lia). apply (view_dget p r c f true i' j' V); lia. }
  apply (window_view (with_buf p b) r c _ nr nc br bc M').
  destruct In as (Wp & Ho & H1 & H2). split; [now apply with_buf_wf|]. auto.
Qed.
Print Assumptions C06_write_seen_through_windows.

(** C09.  A window of a window.  [pos] is the place, counted column by column in
    the matrix, of the element (i, j) of the inner window: the rows of the outer
    window, not those of the matrix, are used as the distance between columns.
    The element is the one the caller named exactly if the outer window is as
    high as the matrix or the element lies in the outer window's first column. *)
Theorem C09_window_of_window_exact :
  forall (T : Type) (p : dense T) r c f nr nc br bc nr2 nc2 br2 bc2 dbg i j,
    is_mat p r c f -> inside p nr nc br bc -> br2 + nr2 <= nr -> bc2 + nc2 <= nc ->
    i < nr2 -> j < nc2 ->
    let w := d_window p nr nc br bc in
    let w2 := d_window w nr2 nc2 br2 bc2 in
    let pos := (br + br2 + i) + bc * r + (bc2 + j) * nr in
    dget dbg w2 i j = Ok (f (pos mod r) (pos / r)) /\
    (cell dbg w2 i j = cell dbg w (br2 + i) (bc2 + j) <-> nr = r \/ bc2 + j = 0).
Proof.
  intros T p r c f nr nc br bc nr2 nc2 br2 bc2 dbg i j M In H1 H2 Hi Hj w w2 pos.
  pose proof M as [(Hs & Hb & Hl) V]. pose proof V as (Hr & Hc & _).
  destruct In as (W & Ho & I1 & I2).
  assert (A2 : addr (d_sh w2) i j = pos).
  { unfold w2, w, pos, addr, d_window, getLdRows, d_rows in *; cbn. rewrite Hb, Hr. lia. }
  assert (A1 : addr (d_sh w) (br2 + i) (bc2 + j) = (br + br2 + i) + (bc + bc2 + j) * r).
  { unfold w, addr, d_window, getLdRows, d_rows in *; cbn. rewrite Hb, Hr. lia. }
  assert (Hpos : pos < r * c).
  { unfold pos. assert (nr <= r) by lia. assert ((bc2 + j) * nr <= (bc2 + j) * r) by nia. nia. }
  assert (Hr0 : r <> 0) by nia.
  split.
  - rewrite dget_in by (cbn; auto).
    rewrite A2. cbn [w2 w d_window d_buf].
    assert (Em : pos mod r < r) by (apply Nat.mod_upper_bound; auto).
    assert (Ed : pos / r < c) by (apply Nat.div_lt_upper_bound; lia).
    pose proof (view_cell p r c f _ _ V Em Ed) as E.
    assert (Ea : addr (d_sh p) (pos mod r) (pos / r) = pos).
    { unfold addr, getLdRows, d_orient, d_rows in *. rewrite Ho, Hs, Hb, Hr.
      pose proof (Nat.div_mod pos r Hr0). lia. }
    rewrite Ea in E. now apply rd_ok.
  - assert (C2 : cell dbg w2 i j = Ok pos).
    { unfold cell. destruct (position_in dbg (d_sh w2) i j) as (q & Eq & Ea); [cbn; auto|cbn; auto|].
      rewrite Eq; cbn [bind]. now rewrite Ea, A2. }
    assert (C1 : cell dbg w (br2 + i) (bc2 + j) = Ok ((br + br2 + i) + (bc + bc2 + j) * r)).
    { unfold cell. destruct (position_in dbg (d_sh w) (br2 + i) (bc2 + j)) as (q & Eq & Ea); [cbn; lia|cbn; lia|].
      rewrite Eq; cbn [bind]. now rewrite Ea, A1. }
    rewrite C1, C2. unfold pos. split.
    + intros [= E]. assert ((bc2 + j) * nr = (bc2 + j) * r) by lia.
      destruct (Nat.eq_dec (bc2 + j) 0); auto. left. nia.
    + intros [-> | E]; f_equal; nia.
Qed.
Print Assumptions C09_window_of_window_exact.

Example C09_window_of_window_nonvacuous : inside demoC 1 3 1 0 /\
  dget true (d_window (d_window demoC 1 3 1 0) 1 2 0 1) 0 1 = Ok 5%Z /\
  dget true (d_window demoC 1 3 1 0) 0 2 = Ok 6%Z.
Proof. repeat split; cbn; lia. Qed.

(** C10.  Empty striped ranges.  Blocks of length 0: the traversal visits the
    [(nb-1)*sep] consecutive cells from the start on, none of which belongs to
    the range; it is empty only for one block or no separator.  No blocks at all
    with a separator: the traversal never ends. *)
Lemma zero_blocks_loop s n : forall p k m,
  sp_cs s = 0%Z -> (0 <= k)%Z -> (k + Z.of_nat n < W64 - 1)%Z ->
  si_loop (S n + m) s (mkSiter p k 0) (p + Z.of_nat n)%Z = Ok (map (fun a => (p + Z.of_nat a)%Z) (seq 0 n)).
Proof.
  induction n as [|n IH]; intros p k m Hcs Hk Hn.
  - cbn [Nat.add si_loop si_ptr]. replace (p + Z.of_nat 0)%Z with p by lia. now rewrite Z.eqb_refl.
  - change (S (S n) + m) with (S (S n + m)). cbn [si_loop si_ptr].
    destruct (Z.eqb_spec p (p + Z.of_nat (S n))%Z); [lia|].
    unfold si_inc at 1; cbn [si_ptr si_pos si_blk]. rewrite Hcs.
    change ((0 - 1) mod W64)%Z with (W64 - 1)%Z.
    destruct (Z.eqb_spec k (W64 - 1)); [lia|].
    replace (p + Z.of_nat (S n))%Z with (p + 1 + Z.of_nat n)%Z by lia.
    rewrite (IH (p + 1)%Z (k + 1)%Z m Hcs) by lia. cbn [bind]. f_equal.
    cbn [seq map]. f_equal; [lia|]. rewrite <- seq_shift, map_map. apply map_ext. intros a. lia.
Qed.

Theorem C10_empty_ranges_exact : forall data nb sep,
  (1 <= nb -> (Z.of_nat ((nb - 1) * sep) < 2 ^ 63)%Z ->
     sp_addrs (mkStriped data 0 (Z.of_nat nb) (Z.of_nat sep)) =
     Ok (map (fun k => (data + Z.of_nat k)%Z) (seq 0 ((nb - 1) * sep)))) /\
  (forall cs fuel, 1 <= sep -> (Z.of_nat sep < 2 ^ 63)%Z ->
     let s := mkStriped data (Z.of_nat cs) 0 (Z.of_nat sep) in
     si_loop fuel s (sp_begin s) (sp_end_ptr s) = Diverge) /\
  (forall cs, sp_addrs (mkStriped data (Z.of_nat cs) 0 0) = Ok []).
Proof.
  intros data nb sep. split; [|split].
  - intros Hnb Hb. unfold sp_addrs, sp_fuel, sp_begin, sp_end_ptr; cbn [sp_cs sp_nb sp_sep sp_data].
    assert (E : to_signed (0 * Z.of_nat nb + (Z.of_nat nb - 1) mod W64 * Z.of_nat sep)
                = Z.of_nat ((nb - 1) * sep)).
    { unfold to_signed, W64 in *.
      destruct (Nat.eq_dec sep 0) as [-> | Hsep].
      { rewrite Nat.mul_0_r. rewrite Z.mul_0_r, Z.mul_0_l. reflexivity. }
      assert (nb - 1 <= (nb - 1) * sep) by nia.
      assert (2 ^ 63 < 2 ^ 64)%Z by reflexivity.
      rewrite (Z.mod_small (Z.of_nat nb - 1)) by lia.
      replace (0 * Z.of_nat nb + (Z.of_nat nb - 1) * Z.of_nat sep)%Z
        with (Z.of_nat ((nb - 1) * sep)) by nia.
      rewrite Z.mod_small by (split; [lia|]; eapply Z.lt_trans; [exact Hb|reflexivity]).
      change (2 ^ 64 / 2)%Z with (2 ^ 63)%Z.
      destruct (Z.ltb_spec (Z.of_nat ((nb - 1) * sep)) (2 ^ 63)%Z); lia. }
    rewrite E.
    assert (exists m, S (Z.to_nat (0 * Z.of_nat nb + Z.of_nat nb * Z.of_nat sep)) = S ((nb - 1) * sep) + m)
      as (m & ->).
    { exists sep. replace (0 * Z.of_nat nb + Z.of_nat nb * Z.of_nat sep)%Z with (Z.of_nat (nb * sep)) by lia.
      rewrite Nat2Z.id. nia. }
    apply zero_blocks_loop; [reflexivity|lia|].
    assert (2 ^ 63 < W64 - 1)%Z by reflexivity. lia.
  - intros cs fuel Hsep Hb s.
    assert (E : sp_end_ptr s = (data - Z.of_nat sep)%Z).
    { unfold s, sp_end_ptr; cbn [sp_cs sp_nb sp_sep sp_data]. rewrite Z.mul_0_r, Z.add_0_l.
      change ((0 - 1) mod W64)%Z with (W64 - 1)%Z. unfold to_signed.
      replace ((W64 - 1) * Z.of_nat sep)%Z with ((W64 - Z.of_nat sep) + (Z.of_nat sep - 1) * W64)%Z by lia.
      rewrite Z.mod_add by discriminate.
      assert (2 ^ 63 < W64)%Z by reflexivity.
      rewrite Z.mod_small by lia.
      destruct (Z.ltb_spec (W64 - Z.of_nat sep)%Z (W64 / 2)%Z) as [L|L].
      - change (W64 / 2)%Z with (2 ^ 63)%Z in L. assert (W64 = 2 * 2 ^ 63)%Z by reflexivity. lia.
      - lia. }
    rewrite E.
    assert (G : forall fuel it, (data <= si_ptr it)%Z ->
              si_loop fuel s it (data - Z.of_nat sep)%Z = Diverge).
    { clear fuel. induction fuel as [|fuel IH]; intros it Hit; [reflexivity|]. cbn [si_loop].
      destruct (Z.eqb_spec (si_ptr it) (data - Z.of_nat sep)%Z); [lia|].
      rewrite IH; [reflexivity|]. unfold si_inc, s; cbn [sp_cs sp_nb sp_sep].
      destruct (_ =? _)%Z; cbn [si_ptr]; [destruct (_ =? _)%Z; lia|lia]. }
    apply G. unfold s; cbn. lia.
  - intros cs. unfold sp_addrs, sp_fuel, sp_begin, sp_end_ptr; cbn [sp_cs sp_nb sp_sep sp_data].
    rewrite !Z.mul_0_r. cbn. rewrite Z.add_0_r, Z.eqb_refl. reflexivity.
Qed.
Print Assumptions C10_empty_ranges_exact.

Example C10_empty_ranges_nonvacuous : sp_addrs (mkStriped 7 0 3 2) = Ok [7; 8; 9; 10]%Z.
Proof. reflexivity. Qed.

(** C11.  Every non-empty nested list: with no row shorter than the first, the
    first row's length is the number of columns and longer rows are cut; with a
    shorter row the constructor reads past its end. *)
Theorem C11_nested_list_exact :
  forall (T : Type) o (first : list T) rest,
    let values := first :: rest in
    ((forall row, In row rest -> length first <= length row) ->
       exists d, d_init_list o values = Ok d /\ d_orient d = o /\ full_ok d /\
         d_rows d = length values /\ d_cols d = length first /\
         forall i j row, nth_error values i = Some row -> j < length first ->
           nth_error row j <> None /\
           forall v, nth_error row j = Some v -> dget true d i j = Ok v) /\
    ((exists row, In row rest /\ length row < length first) ->
       d_init_list o values = UB OOBRead).
Proof.
  intros T o first rest values.
  set (r := length values). set (c := length first). set (d0 := @d_new T o r c).
  assert (W0 : wf_mem d0) by apply d_new_wf.
  set (F := fun i j (d : dense T) =>
    match nth_error values i with
    | None => UB OOBRead
    | Some row => match nth_error row j with
                  | None => UB OOBRead
                  | Some v => do b <- wr (d_buf d) (addr (d_sh d0) i j) v; Ok (with_buf d b)
                  end
    end).
  assert (E0 : d_init_list o values = forM r (fun i => forM c (F i)) d0).
  { unfold d_init_list, values. fold values. fold r c d0. unfold forM.
    apply (foldM_ext_inv (fun x => d_sh x = d_sh d0)); auto.
    - intros i x Hi Ex. apply in_seq in Hi.
      destruct (nth_error values i) as [row|] eqn:Er; [|apply nth_error_None in Er; unfold r in *; lia].
      rewrite Ex, cur_rc by (first [apply Nat.le_refl|change (i < r); lia]). cbn [bind]. rewrite enum_map_seq, foldM_map.
      apply foldM_ext. intros j y Hj. apply in_seq in Hj. unfold F. rewrite Er. reflexivity.
    - intros i x x' _ Ex H.
      refine (foldM_inv_ok _ (fun x => d_sh x = d_sh d0) _ x x' Ex _ H).
      intros j y y' _ Ey Hy. unfold F in Hy. destruct (nth_error values i) as [row|]; [|discriminate].
      destruct (nth_error row j) as [v|]; [|discriminate].
      apply bind_ok in Hy as (b & _ & Hy). inversion Hy; subst; exact Ey. }
  split.
  - intros Hlong.
    assert (Hall : forall i row, nth_error values i = Some row -> c <= length row).
    { intros [|i] row E; cbn in E; [injection E as <-; unfold c; lia|]. apply nth_error_In in E. auto. }
    set (g := fun i j => match nth_error values i with Some row => nth_error row j | None => None end).
    destruct (fill_rc (d_sh d0) (length (d_buf d0)) g F (wf_sh_ok d0 W0))
      with (d := d0) as (b' & E & L & Hin & _); auto.
    { intros i j d Hi Hj Esh _. unfold F, g. change (i < r) in Hi. change (j < c) in Hj.
      destruct (nth_error values i) as [row|] eqn:Er; [|apply nth_error_None in Er; unfold r in *; lia].
      destruct (nth_error row j) as [v|] eqn:Ev; [reflexivity|].
      apply nth_error_None in Ev. specialize (Hall i row Er). lia. }
    exists (with_buf d0 b'). rewrite E0.
    split; [exact E|]. split; [reflexivity|]. split; [reflexivity|]. split; [reflexivity|].
    split; [reflexivity|]. intros i j row Er Hj. specialize (Hall i row Er). fold c in Hj.
    split; [intros N; apply nth_error_None in N; lia|]. intros v Ev.
    assert (Hi : i < r) by (apply nth_error_Some; now rewrite Er).
    rewrite dget_in by assumption. apply rd_ok. cbn [with_buf d_buf d_sh].
    rewrite (Hin i j Hi Hj). unfold g. now rewrite Er, Ev.
  - intros (row & Hrow & Hshort). fold c in Hshort.
    apply In_nth_error in Hrow as (i0 & Er0).
    assert (Er : nth_error values (S i0) = Some row) by exact Er0.
    rewrite E0.
    assert (L0 : length (d_buf d0) = r * c) by (apply W0).
    assert (Step : forall i j d, i < r -> j < c -> length (d_buf d) = r * c ->
              (exists d', F i j d = Ok d' /\ length (d_buf d') = r * c) \/ F i j d = UB OOBRead).
    { intros i j d Hi Hj Hl. unfold F. destruct (nth_error values i) as [rw|]; auto.
      destruct (nth_error rw j) as [v|]; auto. left.
      assert (Ha : addr (d_sh d0) i j < length (d_buf d)).
      { destruct (wf_sh_ok d0 W0) as (_ & _ & H). rewrite Hl, <- L0. exact (H i j Hi Hj). }
      unfold wr, wrc. apply Nat.ltb_lt in Ha. rewrite Ha; cbn [bind]. eexists; split; [reflexivity|].
      cbn. now rewrite upd_length. }
    assert (Bad : forall d, length (d_buf d) = r * c -> forM c (F (S i0)) d = UB OOBRead).
    { intros d Hl. unfold forM. apply (foldM_fails _ (fun d => length (d_buf d) = r * c)); auto.
      - intros j x Hj. apply in_seq in Hj. apply Step; [|lia]. apply nth_error_Some. now rewrite Er.
      - exists (length row). split; [apply in_seq; lia|]. intros x _. unfold F. rewrite Er.
        destruct (nth_error row (length row)) eqn:En; [|reflexivity].
        assert (length row < length row) by (apply nth_error_Some; congruence). lia. }
    unfold forM at 1. apply (foldM_fails _ (fun d => length (d_buf d) = r * c)); auto.
    + intros i x Hi Hx. apply in_seq in Hi. unfold forM. apply foldM_ok_or; auto.
      intros j y Hj. apply in_seq in Hj. apply Step; lia.
    + exists (S i0). split; [|exact Bad]. apply in_seq. split; [lia|].
      assert (S i0 < r) by (apply nth_error_Some; now rewrite Er). lia.
Qed.
Print Assumptions C11_nested_list_exact.

Example C11_nested_list_exact_nonvacuous :
  exists d, d_init_list ColMajor [[1; 2]; [3; 4; 5]]%Z = Ok d /\ dget true d 1 1 = Ok 4%Z /\ d_cols d = 2.
Proof. eexists; vm_compute; auto. Qed.

(** C14.  Windows without rows or columns: the conversion returns exactly when
    the window's traversal is empty; otherwise it does not deliver a matrix
    (it writes outside the new matrix or never ends). *)
Lemma empty_window_addrs {T} (p : dense T) r c f nc br bc :
  is_mat p r c f -> inside p 0 nc br bc -> 1 <= nc -> (Z.of_nat (length (d_buf p)) < 2 ^ 63)%Z ->
  sp_addrs (win_striped (d_sh (d_window p 0 nc br bc))) =
  Ok (map (fun k => Z.of_nat (br + bc * r + k)) (seq 0 ((nc - 1) * r))).
Proof.
  intros M I Hnc Hl. pose proof M as [(Hs & Hb & Hlen) (Hr & Hc & _)].
  destruct I as (_ & Ho & I1 & I2).
  assert ((nc - 1) * r <= r * c) by nia.
  destruct (C10_empty_ranges_exact (Z.of_nat (br + bc * r)) nc r) as (E & _).
  assert (Hbnd : (Z.of_nat ((nc - 1) * r) < 2 ^ 63)%Z).
  { rewrite Hlen, Hr, Hc in Hl. eapply Z.le_lt_trans; [|exact Hl]. now apply inj_le. }
  unfold win_striped, d_window; cbn [d_sh sh_base sh_rows sh_cols sh_ldr]. rewrite Hb, Hr, Nat.add_0_l.
  replace ((Z.of_nat r - Z.of_nat 0) mod W64)%Z with (Z.of_nat r).
  - change (Z.of_nat 0) with 0%Z. rewrite E by assumption. f_equal. apply map_ext. intros k. lia.
  - rewrite Z.sub_0_r. symmetry. apply Z.mod_small. split; [lia|].
    destruct (Nat.eq_dec c 0) as [-> | Hc0]; [lia|].
    assert (r <= r * c) by nia. rewrite Hlen, Hr, Hc in Hl.
    assert (2 ^ 63 < W64)%Z by reflexivity. lia.
Qed.

Theorem C14_empty_window_exact :
  forall (T U : Type) (cv : T -> U) (zero : U) (chk : T -> bool) (p : dense T) r c f nr nc br bc,
    is_mat p r c f -> inside p nr nc br bc -> nr = 0 \/ nc = 0 ->
    (Z.of_nat r < 2 ^ 63)%Z -> (Z.of_nat (length (d_buf p)) < 2 ^ 63)%Z ->
    ((exists d, d_conv_window cv zero chk (d_window p nr nc br bc) = Ok d) <->
     (nc = 0 /\ nr = r) \/ (nr = 0 /\ (nc = 1 \/ r = 0))) /\
    (nr = 0 -> 2 <= nc -> 1 <= r ->
       d_conv_window cv zero chk (d_window p nr nc br bc) = UB OOBWrite).
Proof.
  intros T U cv zero chk p r c f nr nc br bc M I He Hr63 Hl.
  pose proof M as [(Hs & Hb & Hlen) V]. pose proof V as (Hr & Hc & _). pose proof I as (_ & Ho & I1 & I2).
  destruct (Nat.eq_dec nc 0) as [-> | Hnc].
  - (* no columns *)
    split; [|lia].
    unfold d_conv_window. destruct (Nat.eq_dec nr r) as [-> | Hne].
    + split; [auto|]. intros _.
      unfold win_striped, d_window; cbn [d_sh sh_base sh_rows sh_cols sh_ldr]. rewrite Hr, Z.sub_diag.
      change (0 mod W64)%Z with 0%Z. change (Z.of_nat 0) with 0%Z.
      destruct (C10_empty_ranges_exact (Z.of_nat (sh_base (d_sh p) + br + bc * r)) 0 0) as (_ & _ & E).
      rewrite E. cbn [bind enum combine length seq foldM]. eexists; reflexivity.
    + split; [|lia]. intros (d & E). exfalso.
      unfold win_striped, d_window in E; cbn [d_sh sh_base sh_rows sh_cols sh_ldr] in E. rewrite Hr in E.
      destruct (C10_empty_ranges_exact (Z.of_nat (sh_base (d_sh p) + br + bc * r)) 0 (r - nr)) as (_ & G & _).
      specialize (G nr (sp_fuel (mkStriped (Z.of_nat (sh_base (d_sh p) + br + bc * r)) (Z.of_nat nr) 0
                                   (Z.of_nat (r - nr)))) ltac:(lia) ltac:(lia)).
      cbv zeta in G.
      replace ((Z.of_nat r - Z.of_nat nr) mod W64)%Z with (Z.of_nat (r - nr)) in E.
      * unfold sp_addrs in E. change (Z.of_nat 0) with 0%Z in E. rewrite G in E. discriminate.
      * rewrite Z.mod_small; [lia|]. assert (2 ^ 63 < W64)%Z by reflexivity. lia.
  - assert (nr = 0) by lia. subst nr.
    unfold d_conv_window. rewrite (empty_window_addrs p r c f nc br bc M I) by (auto; lia). cbn [bind].
    destruct ((nc - 1) * r) as [|n] eqn:En.
    + split.
      * split; [|eexists; reflexivity]. intros _. right. split; auto.
        apply Nat.eq_mul_0 in En. lia.
      * intros. nia.
    + assert (nc <> 1) by (intros ->; cbn in En; discriminate).
      assert (r <> 0) by (intros ->; rewrite Nat.mul_0_r in En; discriminate).
      assert (E : foldM (fun '(k, a) (d : dense U) =>
                    do v <- rdz (d_buf (d_window p 0 nc br bc)) a;
                    do b <- wr (d_buf d) k (if chk v then cv v else zero); Ok (with_buf d b))
                  (enum (map (fun k => Z.of_nat (br + bc * r + k)) (seq 0 (S n))))
                  (mkDense (own_shape ColMajor 0 nc) (0 * nc) (alloc (0 * nc)) true) = UB OOBWrite).
      { rewrite enum_map_seq, foldM_map. cbn [seq foldM]. rewrite Nat.add_0_r.
        unfold rdz. destruct (Z.ltb_spec (Z.of_nat (br + bc * r)) 0); [lia|]. rewrite Nat2Z.id.
        cbn [d_window d_buf].
        assert (Hp : br + bc * r < r * c) by nia.
        pose proof (view_cell p r c f ((br + bc * r) mod r) ((br + bc * r) / r) V) as Ec.
        specialize (Ec ltac:(apply Nat.mod_upper_bound; lia) ltac:(apply Nat.div_lt_upper_bound; lia)).
        assert (Ea : addr (d_sh p) ((br + bc * r) mod r) ((br + bc * r) / r) = br + bc * r).
        { unfold addr, getLdRows, d_orient, d_rows in *. rewrite Ho, Hs, Hb, Hr.
          pose proof (Nat.div_mod (br + bc * r) r ltac:(auto)). lia. }
        rewrite Ea in Ec. apply rd_ok in Ec. rewrite Ec. reflexivity. }
      cbn [d_window d_rows d_cols d_getSize d_full d_sh sh_rows sh_cols] in *.
      change (0 * nc) with 0 in *.
      split; [|intros _ _ _; exact E]. split; [|lia]. intros (d & Ed). exfalso.
      pose proof (eq_trans (eq_sym E) Ed) as X. discriminate X.
Qed.
Print Assumptions C14_empty_window_exact.

(** C09.  Filling a window without rows overwrites elements of the matrix: all of
    those from the window's corner on, column after column, over [nc-1] columns. *)
Theorem C09_fill_empty_window_exact :
  forall (T : Type) (p : dense T) r c f nc br bc v,
    is_mat p r c f -> inside p 0 nc br bc -> 1 <= nc -> (Z.of_nat (length (d_buf p)) < 2 ^ 63)%Z ->
    exists m, all_filler v (d_window p 0 nc br bc) = Ok (with_buf (d_window p 0 nc br bc) m) /\
      is_mat (with_buf p m) r c
        (fun i j => if (br + bc * r <=? i + j * r) && (i + j * r <? br + (bc + (nc - 1)) * r)
                    then v else f i j).
Proof.
  intros T p r c f nc br bc v M I Hnc Hl.
  pose proof M as [(Hs & Hb & Hlen) V]. pose proof V as (Hr & Hc & _). pose proof I as (Wp & Ho & I1 & I2).
  set (w := d_window p 0 nc br bc). set (a0 := br + bc * r). set (n := (nc - 1) * r).
  unfold all_filler, iter_addrs. cbn [w d_window d_sh sh_sub].
  change (mkShape ColMajor 0 nc true (d_rows p) (d_cols p) (sh_base (d_sh p) + br + bc * d_rows p)) with (d_sh w).
  unfold w at 1. rewrite (empty_window_addrs p r c f nc br bc M I Hnc Hl). cbn [bind].
  fold a0. fold n.
  assert (Hn : a0 + n <= r * c) by (unfold a0, n; nia).
  rewrite foldM_map.
  destruct (foldM_inv (fun k (d : dense T) => do b <- wrz (d_buf d) (Z.of_nat (a0 + k)) v; Ok (with_buf d b))
    (fun k d => exists m, d = with_buf w m /\ length m = r * c /\
       forall a, nth_error m a = if (a0 <=? a) && (a <? a0 + k) then Some (Some v) else nth_error (d_buf p) a)
    (seq 0 n) w) as (d & E & m & -> & Lm & Hm).
  - exists (d_buf p). split; [reflexivity|]. split; [now rewrite Hlen, Hr, Hc|]. intros a.
    destruct (Nat.leb_spec a0 a); destruct (Nat.ltb_spec a (a0 + 0)); cbn [andb]; auto; lia.
  - intros k x d Hk (m & -> & Lm & Hm).
    assert (Hk' : k < n) by (rewrite <- (seq_length n 0); apply nth_error_Some; congruence).
    assert (x = k) by (apply nth_error_nth with (d := 0) in Hk; rewrite seq_nth in Hk by assumption; lia). subst x.
    unfold wrz. destruct (Z.ltb_spec (Z.of_nat (a0 + k)) 0); [lia|]. rewrite Nat2Z.id.
    unfold wr, wrc. cbn [with_buf d_buf]. destruct (Nat.ltb_spec (a0 + k) (length m)); [|lia]. cbn [bind].
    eexists; split; [reflexivity|]. eexists; split; [reflexivity|]. split; [now rewrite upd_length|].
    intros a. destruct (Nat.eq_dec a (a0 + k)) as [-> | Hne].
    + rewrite nth_error_upd_eq by lia.
      destruct (Nat.leb_spec a0 (a0 + k)); [|lia]. destruct (Nat.ltb_spec (a0 + k) (a0 + S k)); [reflexivity|lia].
    + rewrite nth_error_upd_ne by auto. rewrite Hm.
      destruct (Nat.leb_spec a0 a); destruct (Nat.ltb_spec a (a0 + k)); destruct (Nat.ltb_spec a (a0 + S k));
        cbn [andb]; auto; lia.
  - rewrite seq_length in Hm. exists m. split; [exact E|].
    assert (Lm' : length m = length (d_buf p)) by (rewrite Hlen, Hr, Hc; exact Lm).
    split; [now apply with_buf_wf|]. apply view_from_cells; auto. intros i j Hi Hj.
    assert (Ea : addr (d_sh p) i j = i + j * r).
    { unfold addr, getLdRows, d_orient, d_rows in *. rewrite Ho, Hs, Hb, Hr. lia. }
    change (d_sh (with_buf p m)) with (d_sh p). change (d_buf (with_buf p m)) with m. rewrite Ea, Hm.
    pose proof (view_cell p r c f i j V Hi Hj) as Ec. rewrite Ea in Ec.
    replace (a0 + n) with (br + (bc + (nc - 1)) * r) by (unfold a0, n; lia). fold a0.
    destruct (_ && _); [reflexivity|exact Ec].
Qed.
Print Assumptions C09_fill_empty_window_exact.

Example C09_fill_empty_window_nonvacuous : inside demoC 0 3 1 0 /\
  exists m, all_filler 9%Z (d_window demoC 0 3 1 0) = Ok (with_buf (d_window demoC 0 3 1 0) m) /\
    m = map Some [1; 9; 9; 9; 9; 6]%Z.
Proof. split; [repeat split; cbn; lia|]. eexists; split; reflexivity. Qed.

(** C07.  swap: each object keeps the getSize() it had, so after exchanging two
    matrices getSize() is right exactly if they had equally many elements. *)
Theorem C07_swap_exact :
  forall (T : Type) (S : Scalar T) (a b : dense T), built a -> built b ->
    let a' := fst (d_swap a b) in let b' := snd (d_swap a b) in
    d_rows a' = d_rows b /\ d_cols a' = d_cols b /\ d_rows b' = d_rows a /\ d_cols b' = d_cols a /\
    d_getSize a' = d_rows a * d_cols a /\ d_getSize b' = d_rows b * d_cols b /\
    (d_getSize a' = d_rows a' * d_cols a' <-> d_rows a * d_cols a = d_rows b * d_cols b).
Proof.
  intros T S a b Ha Hb a' b'.
  destruct (C07_getsize T S a Ha) as [Ga _]. destruct (C07_getsize T S b Hb) as [Gb _].
  unfold a', b', d_swap, d_getSize, d_rows, d_cols in *; cbn. intuition congruence.
Qed.
Print Assumptions C07_swap_exact.

(** C07.  A resize refused for foreign memory leaves the new dimensions on the old
    memory: exactly the positions whose new place lies within the old memory can
    still be accessed. *)
Theorem C07_throwing_resize_exact :
  forall (T : Type) o r c (m : buf T) r' c', length m = r * c -> r' * c' <> r * c ->
    exists d', d_resize (d_external o r c m) r' c' = (d', true) /\
      d_rows d' = r' /\ d_cols d' = c' /\ d_getSize d' = r' * c' /\
      forall i j, i < r' -> j < c' ->
        let pos := match o with RowMajor => i * c' + j | ColMajor => i + j * r' end in
        dget true d' i j = (if pos <? r * c then rd m pos else UB OOBRead).
Proof.
  intros T o r c m r' c' Hm Hne. unfold d_resize, d_external; cbn [d_buf d_own d_sh].
  rewrite Hm. destruct (Nat.eqb_spec (r * c) (r' * c')); [lia|]. cbn [negb andb].
  eexists; split; [reflexivity|]. do 3 (split; [reflexivity|]). intros i j Hi Hj.
  set (pos := match o with RowMajor => i * c' + j | ColMajor => i + j * r' end).
  rewrite dget_in by (cbn; auto). unfold addr, getLdRows, getLdColumns.
  destruct o; cbn [d_sh d_buf sh_o d_orient own_shape sh_rows sh_cols sh_sub sh_base Nat.add]; rewrite ?(Nat.add_comm 0), ?Nat.add_0_r; fold pos; (destruct (Nat.ltb_spec pos (r * c)); [reflexivity|]);
    unfold rd; replace (nth_error m pos) with (@None (option T)); auto; symmetry; apply nth_error_None; lia.
Qed.
Print Assumptions C07_throwing_resize_exact.
