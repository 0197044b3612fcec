(** C43, C44: every archive, every data file. *)
From Coq Require Import NArith Nnat.
From Verif Require Import Base BaseLemmas Dense_Model Dense_Spec Dense_Proofs Dense2_Proofs Norm_Spec Norm_Proofs
  IO_Model IO_Spec IO_Proofs Dense_Props IO_Props Exact_Props.

(** An element of an object that owns its memory, whatever the length of the
    memory. *)
Lemma dget_own {T} dbg (d : dense T) i j : sh_sub (d_sh d) = false -> sh_base (d_sh d) = 0 -> i < d_rows d -> j < d_cols d ->
  dget dbg d i j = rd (d_buf d) (lin (d_orient d) (d_rows d) (d_cols d) i j).
Proof.
  intros Hs Hb Hi Hj. unfold dget, position, cassert, d_orient, d_rows, d_cols, lin in *.
  rewrite Hb. apply Nat.ltb_lt in Hi, Hj. rewrite ?Hi, ?Hj. unfold getLdRows, getLdColumns. rewrite Hs.
  destruct dbg; cbn [negb andb bind]; destruct (sh_o (d_sh d)); cbn [bind plus]; f_equal; lia.
Qed.

(** ** C43 *)
Definition loaded {T} (e : dense T) r c full (xs : list T) : dense T :=
  mkDense (mkShape (d_orient e) r c (sh_sub (d_sh e)) (sh_ldr (d_sh e)) (sh_ldc (d_sh e)) 0) full (map Some xs) true.

Lemma load_values_inv {T} n (l : list (tok T)) :
  load_values n l = Throw \/ exists xs rest, length xs = n /\ l = map TV xs ++ rest.
Proof.
  unfold load_values, forM.
  set (g := fun i '((b, l) : buf T * list (tok T)) => do x <- get_v l; let '(v, l) := x in do b <- wr b i v; Ok (b, l)).
  enough (G : forall m a b l, length b = a + m -> foldM g (seq a m) (b, l) = Throw \/
    exists xs rest, length xs = m /\ l = map TV xs ++ rest) by (apply G; apply alloc_length).
  clear n l. induction m as [|m IH]; intros a b l Hb.
  - right. exists [], l. split; reflexivity.
  - cbn [seq foldM]. destruct l as [|[n|v] l]; [left; reflexivity|left; reflexivity|].
    cbn [g get_v bind]. rewrite wr_ok by lia. cbn [bind].
    destruct (IH (S a) (upd b a (Some v)) l) as [E|(xs & rest & Hx & ->)]; [rewrite upd_length; lia|left; exact E|].
    right. exists (v :: xs), rest. split; [cbn; lia|reflexivity].
Qed.

(** Loading: reported, unless the archive starts with four numbers and then as
    many elements as the fourth one says.  The object then has the first two
    numbers as dimensions; its elements are those of the archive in storage
    order; beyond them the object has no memory. *)
Theorem C43_any_archive :
  forall (T : Type) (e : dense T) (l : list (tok T)), sh_sub (d_sh e) = false ->
    (d_load e l = Throw /\
       ~ exists r c full xs rest, l = TN r :: TN c :: TN full :: TN (length xs) :: map TV xs ++ rest) \/
    exists r c full xs rest, l = TN r :: TN c :: TN full :: TN (length xs) :: map TV xs ++ rest /\
      exists e', d_load e l = Ok (e', rest) /\ d_rows e' = r /\ d_cols e' = c /\ d_getSize e' = full /\
        d_orient e' = d_orient e /\ d_own e' = true /\
        forall dbg i j, i < r -> j < c ->
          dget dbg e' i j = match nth_error xs (lin (d_orient e) r c i j) with Some v => Ok v | None => UB OOBRead end.
Proof.
  intros T e l Hs.
  assert (A : d_load e l = Throw \/ exists r c full xs rest, l = TN r :: TN c :: TN full :: TN (length xs) :: map TV xs ++ rest).
  { destruct l as [|[r|?] l]; [left; reflexivity| |left; reflexivity].
    destruct l as [|[c|?] l]; [left; reflexivity| |left; reflexivity].
    destruct l as [|[full|?] l]; [left; reflexivity| |left; reflexivity].
    destruct l as [|[n|?] l]; [left; reflexivity| |left; reflexivity].
    destruct (load_values_inv n l) as [E|(xs & rest & Hn & ->)].
    - left. unfold d_load. cbn [get_n bind]. now rewrite E.
    - right. subst n. eauto 8. }
  destruct A as [E|(r & c & full & xs & rest & ->)].
  - left. split; [exact E|]. intros (r & c & full & xs & rest & ->). rewrite d_load_ok in E. discriminate.
  - right. exists r, c, full, xs, rest. split; [reflexivity|]. exists (loaded e r c full xs).
    split; [apply d_load_ok|]. repeat (split; [reflexivity|]). intros dbg i j Hi Hj.
    rewrite dget_own by (cbn; auto). unfold loaded, d_orient, d_rows, d_cols. cbn [d_sh sh_o sh_rows sh_cols d_buf].
    unfold rd. rewrite nth_error_map. now destruct (nth_error xs _).
Qed.
Print Assumptions C43_any_archive.
Example C43_any_archive_nonvacuous :
  d_load (d_default ColMajor) [TN 2; TN 2; TN 4; TN 1; TN 3] = Throw (A := dense Z * list (tok Z)) /\
  exists e, d_load (d_default ColMajor) [TN 2; TN 2; TN 4; TN 1; TV 7%Z; TN 3] = Ok (e, [TN 3]) /\
    dget false e 0 0 = Ok 7%Z /\ dget false e 1 0 = UB OOBRead.
Proof. split; [reflexivity|]. eexists. split; [reflexivity|]. split; reflexivity. Qed.

(** ** C44 *)
Lemma i_read_any {T} (file : list T) pos n (b : buf T) a : a + n <= length b ->
  exists b' pos', i_read file (pos, true) n b a = Ok ((pos', (pos + n <=? length file) || (n =? 0)), b') /\ length b' = length b /\
    (pos + n <= length file \/ n = 0 -> pos' = pos + n) /\
    forall p, nth_error b' p = if (a <=? p) && (p <? a + n)
      then match nth_error file (pos + (p - a)) with Some x => Some (Some x) | None => nth_error b p end
      else nth_error b p.
Proof.
  intros Hb. unfold i_read. set (xs := firstn n (skipn pos file)).
  assert (L : length xs = Nat.min n (length file - pos)). { unfold xs. now rewrite firstn_length, skipn_length. }
  destruct (write_seq xs b a) as (b' & E & Lb & G); [lia|]. rewrite E. cbn [bind].
  replace (length xs =? n) with ((pos + n <=? length file) || (n =? 0)).
  2:{ destruct (Nat.leb_spec (pos + n) (length file)), (Nat.eqb_spec n 0), (Nat.eqb_spec (length xs) n); cbn; lia || reflexivity. }
  exists b', (pos + length xs). split; [reflexivity|]. split; [exact Lb|]. split; [lia|]. intros p. rewrite G.
  destruct (Nat.leb_spec a p); cbn [andb]; [|reflexivity].
  destruct (Nat.ltb_spec p (a + length xs)), (Nat.ltb_spec p (a + n)); cbn [andb]; try lia.
  - unfold xs. rewrite nth_error_firstn', nth_error_skipn'. destruct (Nat.ltb_spec (p - a) n); [|lia].
    destruct (nth_error file (pos + (p - a))) eqn:En; [reflexivity|]. apply nth_error_None in En. lia.
  - destruct (nth_error file (pos + (p - a))) eqn:En; [|reflexivity].
    assert (pos + (p - a) < length file) by (apply nth_error_Some; congruence). lia.
  - reflexivity.
Qed.

(** The place of element (i, j) of the window in the file. *)
Definition source (s : fset) (i j : nat) : nat :=
  (N.to_nat (fs_coff s) + j) * N.to_nat (fs_rld s) + (N.to_nat (fs_roff s) + i).

Lemma file_read_any {T} sz (file : list T) s (m : dense T) :
  owning m -> window_fits s -> (0 < sz)%N -> (fs_rld s * (fs_cld s + 1) * sz < 2 ^ 63)%N -> (fs_cld s < 2 ^ 64)%N ->
  let nr := N.to_nat (fs_rows s) in let nc := N.to_nat (fs_cols s) in let z := fst (d_resize m nr nc) in
  exists b, file_read sz (Some file) s m = Ok (with_buf z b) /\ length b = nr * nc /\
    forall i j, i < nr -> j < nc -> nth_error b (j * nr + i) =
      match nth_error file (source s i j) with Some x => Some (Some x) | None => nth_error (d_buf z) (j * nr + i) end.
Proof.
  intros Hm [Fr Fc] Hsz Hbig Hc64. destruct s as [nr' nc' R' C' ro' co']. unfold source. cbn [fs_rows fs_cols fs_rld fs_cld fs_roff fs_coff] in *.
  assert (HR64 : (R' < 2 ^ 63)%N) by nia.
  unfold file_read. cbn [fs_rows fs_cols fs_rld fs_cld fs_roff fs_coff].
  set (nr := N.to_nat nr'). set (nc := N.to_nat nc'). cbv zeta.
  destruct (resize_ok m nr nc Hm) as (b & E & L). rewrite E. cbn [fst]. cbn [d_sh sh_base d_buf].
  unfold w64. rewrite !N.mod_small by lia.
  destruct (N.ltb_spec R' (nr' + ro')); [lia|]. destruct (N.ltb_spec C' (nc' + co')); [lia|].
  set (R := N.to_nat R') in *. set (C := N.to_nat C') in *. set (ro := N.to_nat ro'). set (co := N.to_nat co').
  assert (Hr : ro + nr <= R) by lia. assert (Hc : co + nc <= C) by lia.
  destruct ((nc' =? C')%N && (nr' =? R')%N) eqn:Ew.
  - apply Bool.andb_true_iff in Ew as [Ec Er]. apply N.eqb_eq in Ec, Er.
    assert (Hz : ro = 0 /\ co = 0 /\ nr = R /\ nc = C) by lia. destruct Hz as (Hro & Hco & EnR & EnC).
    destruct (i_read_any file 0 (nr * nc) b 0) as (b' & p' & Eb & Lb & _ & G); [lia|].
    rewrite Eb. cbn [bind snd]. exists b'. split; [reflexivity|]. split; [lia|]. intros i j Hi Hj. rewrite G.
    assert (j * nr + i < nr * nc) by nia.
    destruct (Nat.leb_spec 0 (j * nr + i)); [|lia]. destruct (Nat.ltb_spec (j * nr + i) (0 + nr * nc)); [|lia]. cbn [andb].
    replace (0 + (j * nr + i - 0)) with ((co + j) * R + (ro + i)) by (rewrite Hro, Hco, EnR; lia). reflexivity.
  - assert (H1 : ((2 ^ 63 <=? (co' * R' + ro') * sz)%N || (2 ^ 63 <=? R' * sz)%N) = false).
    { apply Bool.orb_false_iff. split; apply N.leb_gt; nia. }
    rewrite H1. clear H1. cbn [i_seek].
    replace (N.to_nat (co' * R' + ro')) with (co * R + ro) by lia.
    match goal with |- context [forM nc ?g ?s] =>
      destruct (forM_inv g (fun col st => let '((pos, ok), b') := st in length b' = nr * nc /\
         (if ok : bool then pos = (co + col) * R + ro else length file < (co + col) * R + ro) /\
         forall i j, i < nr -> j < nc -> nth_error b' (j * nr + i) =
           match (if j <? col then nth_error file ((co + j) * R + (ro + i)) else None) with
           | Some x => Some (Some x) | None => nth_error b (j * nr + i) end) nc s)
      as (st & Est & G) end.
    + cbn beta iota. split; [exact L|]. split; [now rewrite Nat.add_0_r|]. intros i j _ _. reflexivity.
    + intros col [[pos ok] b1] Hcol (L1 & Hp & G1). cbn [plus]. destruct ok.
      * destruct (i_read_any file pos nr b1 (col * nr)) as (b2 & p2 & E2 & L2 & P2 & G2); [nia|].
        rewrite E2. cbn [bind]. eexists. split; [reflexivity|].
        assert (Cells : forall i j, i < nr -> j < nc -> nth_error b2 (j * nr + i) =
           match (if j <? S col then nth_error file ((co + j) * R + (ro + i)) else None) with
           | Some x => Some (Some x) | None => nth_error b (j * nr + i) end).
        { intros i j Hi Hj. rewrite G2. destruct (Nat.eq_dec j col) as [->|Hne].
          - destruct (Nat.leb_spec (col * nr) (col * nr + i)); [|lia].
            destruct (Nat.ltb_spec (col * nr + i) (col * nr + nr)); [|lia]. cbn [andb].
            destruct (Nat.ltb_spec col (S col)); [|lia]. rewrite Hp.
            replace ((co + col) * R + ro + (col * nr + i - col * nr)) with ((co + col) * R + (ro + i)) by lia.
            destruct (nth_error file _); [reflexivity|]. rewrite (G1 i col Hi Hj), Nat.ltb_irrefl. reflexivity.
          - replace ((col * nr <=? j * nr + i) && (j * nr + i <? col * nr + nr)) with false.
            2:{ symmetry. apply Bool.andb_false_iff. destruct (Nat.lt_ge_cases j col).
                - left. apply Nat.leb_gt. pose proof (Nat.mul_le_mono_r (S j) col nr ltac:(lia)) as HH. rewrite Nat.mul_succ_l in HH. lia.
                - right. apply Nat.ltb_ge. pose proof (Nat.mul_le_mono_r (S col) j nr ltac:(lia)) as HH. rewrite Nat.mul_succ_l in HH. lia. }
            rewrite (G1 i j Hi Hj). destruct (Nat.ltb_spec j col), (Nat.ltb_spec j (S col)); try lia; reflexivity. }
        destruct (Nat.leb_spec (pos + nr) (length file)); cbn [orb].
        -- cbn [i_seek]. split; [lia|]. split; [|exact Cells]. rewrite P2 by auto. nia.
        -- destruct (Nat.eqb_spec nr 0) as [Hn|Hn]; cbn [i_seek].
           ++ split; [lia|]. split; [|exact Cells]. rewrite P2 by auto. nia.
           ++ split; [lia|]. split; [|exact Cells]. nia.
      * cbn [i_read bind i_seek]. eexists. split; [reflexivity|]. split; [exact L1|]. split; [nia|].
        intros i j Hi Hj. rewrite (G1 i j Hi Hj). destruct (Nat.ltb_spec j col), (Nat.ltb_spec j (S col)); try lia; try reflexivity.
        replace j with col by lia. replace (nth_error file ((co + col) * R + (ro + i))) with (@None T); [reflexivity|].
        symmetry. apply nth_error_None. lia.
    + rewrite Est. destruct st as [[pos ok] b']. destruct G as (Lb & _ & G). cbn [bind snd].
      exists b'. split; [reflexivity|]. split; [exact Lb|]. intros i j Hi Hj. rewrite (G i j Hi Hj).
      destruct (Nat.ltb_spec j nc); [reflexivity|lia].
Qed.

(** Any data file, of any length: element (i, j) of the window that the file
    holds is read; the others are what the resized matrix held, without any
    report.  A row-major matrix gets the elements in column-major order. *)
Theorem C44_any_file :
  forall (T : Type) (sz : N) (file : list T) (s : fset) (m : dense T),
    owning m -> window_fits s -> (0 < sz)%N -> (fs_rld s * (fs_cld s + 1) * sz < 2 ^ 63)%N -> (fs_cld s < 2 ^ 64)%N ->
    let nr := N.to_nat (fs_rows s) in let nc := N.to_nat (fs_cols s) in
    exists e, file_read sz (Some file) s m = Ok e /\ d_rows e = nr /\ d_cols e = nc /\ d_orient e = d_orient m /\
      d_getSize e = nr * nc /\ d_own e = true /\
      forall dbg i j, i < nr -> j < nc ->
        let q := lin (d_orient m) nr nc i j in
        dget dbg e i j = match nth_error file (source s (q mod nr) (q / nr)) with
                         | Some x => Ok x
                         | None => dget dbg (fst (d_resize m nr nc)) i j
                         end.
Proof.
  intros T sz file s m Hm Hw Hsz Hbig Hc nr nc.
  destruct (file_read_any sz file s m Hm Hw Hsz Hbig Hc) as (b & E & L & G). fold nr nc in E, L, G.
  destruct (resize_ok m nr nc Hm) as (b0 & E0 & L0). rewrite E0 in E, G |- *. cbn [fst] in E, G |- *.
  eexists. split; [exact E|]. split; [reflexivity|]. split; [reflexivity|]. split; [reflexivity|]. split; [reflexivity|]. split; [reflexivity|].
  intros dbg i j Hi Hj. cbv zeta.
  rewrite !dget_own by (cbn; auto). unfold d_orient, d_rows, d_cols. cbn [with_buf d_buf d_sh sh_o sh_rows sh_cols].
  fold (d_orient m). set (q := lin (d_orient m) nr nc i j).
  assert (Hq : q < nr * nc) by (unfold q, lin; destruct (d_orient m); nia).
  assert (Hnr : nr <> 0) by lia. pose proof (Nat.div_mod q nr Hnr) as Dq. pose proof (Nat.mod_upper_bound q nr Hnr) as Mq.
  assert (Hd : q / nr < nc) by (apply Nat.div_lt_upper_bound; lia).
  specialize (G (q mod nr) (q / nr) Mq Hd). replace (q / nr * nr + q mod nr) with q in G by lia. cbn [d_buf] in G.
  unfold rd. rewrite G. now destruct (nth_error file _).
Qed.
Print Assumptions C44_any_file.

(** Column-major targets: the places are those of the window, and an element the
    file does not hold is uninitialised in a new matrix. *)
Theorem C44_short_file_exact :
  forall (T : Type) (sz : N) (file : list T) (s : fset),
    window_fits s -> (0 < sz)%N -> (fs_rld s * (fs_cld s + 1) * sz < 2 ^ 63)%N -> (fs_cld s < 2 ^ 64)%N ->
    exists e, file_read sz (Some file) s (d_default ColMajor) = Ok e /\
      d_rows e = N.to_nat (fs_rows s) /\ d_cols e = N.to_nat (fs_cols s) /\
      forall dbg i j, i < N.to_nat (fs_rows s) -> j < N.to_nat (fs_cols s) ->
        dget dbg e i j = match nth_error file (source s i j) with Some x => Ok x | None => UB UninitRead end.
Proof.
  intros T sz file s Hw Hsz Hbig Hc.
  destruct (C44_any_file T sz file s (d_default ColMajor)) as (e & E & Hr & Hcl & _ & _ & _ & G); auto; [repeat split|].
  exists e. do 3 (split; [assumption|]). intros dbg i j Hi Hj. specialize (G dbg i j Hi Hj). cbn zeta in G. rewrite G.
  cbn [d_orient d_default d_sh own_shape sh_o lin].
  set (nr := N.to_nat (fs_rows s)) in *. set (nc := N.to_nat (fs_cols s)) in *.
  assert (Hnr : nr <> 0) by lia.
  rewrite Nat.add_comm, Nat.mod_add, Nat.mod_small, Nat.div_add, Nat.div_small by lia. cbn [plus].
  destruct (nth_error file (source s i j)); [reflexivity|].
  unfold d_resize. cbn [d_default d_own d_sh own_shape sh_sub negb andb]. rewrite ?Bool.andb_false_r. cbn [fst].
  rewrite dget_own by (cbn; auto). unfold d_orient, d_rows, d_cols. cbn [d_sh d_buf sh_o sh_rows sh_cols lin].
  unfold st_resize. cbn [length]. assert (Hq : j * nr + i < nr * nc) by nia.
  unfold alloc.
  match goal with |- rd ?b ?q = _ => assert (X : nth_error b q = Some None); [|unfold rd; now rewrite X] end.
  cbn [d_default d_buf d_sh own_shape sh_o length lin]. destruct (Nat.eqb_spec 0 (nr * nc)); [lia|].
  now apply nth_error_repeat.
Qed.
Print Assumptions C44_short_file_exact.
Example C44_short_file_exact_nonvacuous :
  window_fits demo_set /\
  exists e, file_read 8 (Some [1; 2; 3; 4; 5]%Z) demo_set (d_default ColMajor) = Ok e /\
    dget true e 0 0 = Ok 5%Z /\ dget true e 1 0 = UB UninitRead.
Proof. split; [split; reflexivity || (cbn; lia)|]. eexists. split; [vm_compute; reflexivity|]. split; reflexivity. Qed.

Lemma foldM_calm {X S} (f : X -> S -> res S) l : (forall x s, f x s <> Throw) -> forall s, foldM f l s <> Throw.
Proof.
  intros H. induction l as [|x l IH]; intros s; cbn [foldM]; [discriminate|].
  specialize (H x s). destruct (f x s); cbn [bind]; auto; congruence.
Qed.
Lemma i_read_calm {T} (file : list T) st n b a : i_read file st n b a <> Throw.
Proof.
  destruct st as [pos [|]]; cbn [i_read]; [|discriminate].
  match goal with |- context [foldM ?f ?l ?s] => assert (C : foldM f l s <> Throw); [|destruct (foldM f l s); cbn [bind]; congruence] end.
  apply foldM_calm. intros [k x] s. unfold wr, wrc. destruct (_ <? _); discriminate.
Qed.

(** Which descriptions are rejected: the sums wrap around at 2^64. *)
Theorem C44_accepted_windows :
  forall (T : Type) (sz : N) (file : list T) (s : fset) (m : dense T), owning m ->
    ((fs_rld s < (fs_rows s + fs_roff s) mod 2 ^ 64 \/ fs_cld s < (fs_cols s + fs_coff s) mod 2 ^ 64)%N <->
      file_read sz (Some file) s m = Throw).
Proof.
  intros T sz file s m Hm. unfold file_read. destruct (resize_ok m (N.to_nat (fs_rows s)) (N.to_nat (fs_cols s)) Hm) as (b & E & L).
  rewrite E. unfold w64.
  destruct (N.ltb_spec (fs_rld s) ((fs_rows s + fs_roff s) mod 2 ^ 64)) as [H1|H1]; [tauto|].
  destruct (N.ltb_spec (fs_cld s) ((fs_cols s + fs_coff s) mod 2 ^ 64)) as [H2|H2]; [tauto|].
  split; [intros [H|H]; exfalso; lia|]. cbn [d_sh sh_base d_buf]. intros H. exfalso. revert H.
  destruct ((fs_cols s =? fs_cld s)%N && (fs_rows s =? fs_rld s)%N).
  - match goal with |- context [i_read ?a ?b ?c ?d ?e] => pose proof (i_read_calm a b c d e) as C; destruct (i_read a b c d e) end;
      cbn [bind]; congruence.
  - destruct (_ || _); [discriminate|].
    match goal with |- context [forM ?n ?g ?s] => assert (C : forM n g s <> Throw); [|destruct (forM n g s); cbn [bind]; congruence] end.
    apply foldM_calm. intros x [st b1]. 
    match goal with |- context [i_read ?a ?b ?c ?d ?e] => pose proof (i_read_calm a b c d e) as C; destruct (i_read a b c d e) as [[? ?]| | | |] end;
      cbn [bind]; congruence.
Qed.
Print Assumptions C44_accepted_windows.
