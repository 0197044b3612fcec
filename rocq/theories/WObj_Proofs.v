(** Proofs about programs over matrices and windows (WObj_Spec.v). *)
From Verif Require Import BaseLemmas Storage_Model Dense_Model Dense_Spec Dense_Proofs Striped_Proofs Dense2_Proofs
  Alias_Spec Alias_Proofs WObj_Model WObj_Spec.

Section P.
Context {T : Type}.
Implicit Types (a : astate T) (x : wst T) (m : wsys T).

(** ** Regions never change their size. *)
Definition grows (r1 r2 : list (region T)) : Prop :=
  forall i g, nth_error r1 i = Some g -> exists g', nth_error r2 i = Some g' /\ length (r_cells g') = length (r_cells g).
Lemma grows_refl r : grows r r. Proof. intros i g H. eauto. Qed.
Lemma grows_app r l : grows r (r ++ l).
Proof. intros i g H. exists g. split; auto. rewrite nth_error_app1; auto. apply nth_error_Some. congruence. Qed.
Lemma grows_upd r i g k c : nth_error r i = Some g -> length c = length (r_cells g) -> grows r (upd r i (mkRegion k c)).
Proof.
  intros H L j g' Hj. destruct (Nat.eq_dec j i) as [->|N].
  - eexists. split; [apply nth_error_upd_eq; apply nth_error_Some; congruence|]. cbn. congruence.
  - exists g'. now rewrite nth_error_upd_ne by congruence.
Qed.
Lemma grows_trans (r1 r2 r3 : list (region T)) : grows r1 r2 -> grows r2 r3 -> grows r1 r3.
Proof. intros H K i g Hi. destruct (H i g Hi) as (g1 & H1 & L1). destruct (K i g1 H1) as (g2 & H2 & L2). exists g2. split; auto. congruence. Qed.

Lemma write_grows a h f : (forall r g, st_data (conc h) = Some r -> nth_error (regions a) r = Some g -> length (f (r_cells g)) = length (r_cells g)) ->
  grows (regions a) (regions (write a h f)).
Proof.
  intros H. destruct h as [b|r n|r n]; cbn; try apply grows_refl;
    (destruct (nth_error (regions a) r) as [g|] eqn:E; [|apply grows_refl]; cbn [regions];
     apply grows_upd with (g := g); auto; eapply H; cbn; eauto).
Qed.

Lemma astep_grows a y o a1 z : Rel a y -> astep a o = Some (a1, z) -> grows (regions a) (regions a1).
Proof.
  intros R E. destruct o as [|n|vs|s|s|s|vs|r n|s|s n|d s|d s|u w|s v|s i v|s i|s vs|s]; cbn [astep] in E;
  repeat match type of E with
  | match live a ?s with _ => _ end = _ => let H := fresh "L" in destruct (live a s) eqn:H; [|discriminate E]
  | match contents a ?h with _ => _ end = _ => let H := fresh "C" in destruct (contents a h) eqn:H; [|discriminate E]
  | match nth_error ?l ?i with _ => _ end = _ => let H := fresh "N" in destruct (nth_error l i) eqn:H; try discriminate E
  | match r_kind ?g with _ => _ end = _ => destruct (r_kind g); try discriminate E
  | (if ?b then _ else _) = _ => let H := fresh "B" in destruct b eqn:H; try discriminate E
  end; try (injection E as <- <-); cbn [add put region_new regions handles];
  try apply grows_refl; try apply grows_app.
  - (* fill *) apply write_grows. intros r g D Hg. destruct (live_get _ _ _ _ R L) as (Hh & _).
    pose proof (wf_hok _ _ _ _ (rel_wf _ _ R) Hh) as K. rewrite app_length, repeat_length, skipn_length.
    destruct h as [b'|r' n'|r' n']; cbn in D |- *; try discriminate; injection D as ->; cbn in K.
    + destruct K as (g' & Hg' & _ & <-). rewrite Hg in Hg'. injection Hg' as ->. lia.
    + destruct K as (g' & Hg' & K). rewrite Hg in Hg'. injection Hg' as ->. lia.
  - apply write_grows. intros. apply upd_length.
  - (* load *) eapply grows_trans; [|apply grows_app]. destruct h as [b|r n|r n]; try apply grows_refl.
    destruct (nth_error (regions a) r) as [g|] eqn:Eg; [|apply grows_refl]. now apply grows_upd with (g := g).
Qed.

(** ** The elements of a window *)
Definition wplaces (v : swin) : list nat :=
  map (fun k => place_in v (k mod v_rows v) (k / v_rows v)) (seq 0 (v_rows v * v_cols v)).
Definition wconc (v : swin) : win :=
  mkWin (Some (v_region v)) (v_first v) (v_rows v) (v_cols v)
        (match v_ldc v with Some _ => v_stride v | None => 0 end)
        (match v_ldc v with Some c => c | None => 0 end)
        ((Z.of_nat (v_stride v) - Z.of_nat (v_rows v)) mod W64)%Z.
Definition wwf (regs : list (region T)) (v : swin) : Prop :=
  exists g br bc, nth_error regs (v_region v) = Some g /\ v_first v = br + bc * v_stride v /\
    br + v_rows v <= v_stride v /\ (bc + v_cols v) * v_stride v <= length (r_cells g).

Lemma wwf_grows r1 r2 v : grows r1 r2 -> wwf r1 v -> wwf r2 v.
Proof.
  intros G (g & br & bc & Hg & F & B & L). destruct (G _ _ Hg) as (g' & Hg' & L').
  exists g', br, bc. rewrite L'. auto.
Qed.
Lemma place_lt regs v g i j : wwf regs v -> nth_error regs (v_region v) = Some g ->
  i < v_rows v -> j < v_cols v -> place_in v i j < length (r_cells g).
Proof.
  intros (g' & br & bc & Hg & F & B & L) Hg' Hi Hj. rewrite Hg in Hg'. injection Hg' as ->.
  unfold place_in. rewrite F. nia.
Qed.

Lemma pairs_places v : 1 <= v_rows v ->
  map (fun p => place_in v (snd p) (fst p)) (pairs (v_cols v) (v_rows v)) = wplaces v.
Proof.
  intros H. unfold wplaces. rewrite (Nat.mul_comm (v_rows v)), <- pairs_lin, map_map. apply map_ext_in.
  intros [j i] Hp. unfold pairs in Hp. apply in_flat_map in Hp. destruct Hp as (j' & _ & Hp).
  apply in_map_iff in Hp. destruct Hp as (i' & E & Hi). injection E as -> ->. apply in_seq in Hi.
  cbn [fst snd]. f_equal.
  - rewrite Nat.add_comm, Nat.mod_add by lia. symmetry. apply Nat.mod_small. lia.
  - rewrite Nat.div_add_l by lia. rewrite Nat.div_small by lia. lia.
Qed.

Lemma w_addrs_ok regs v : wwf regs v -> traversable v = true ->
  w_addrs (wconc v) = Ok (map Z.of_nat (wplaces v)).
Proof.
  intros (g & br & bc & _ & F & B & _) H. unfold traversable in H.
  apply andb_prop in H. destruct H as (H & H3). apply andb_prop in H. destruct H as (H1 & H2).
  apply Nat.leb_le in H1, H2. apply Z.ltb_lt in H3.
  pose proof (win_addrs (mkShape ColMajor (v_rows v) (v_cols v) true (v_stride v) 0 (v_first v))) as W.
  cbn [sh_o sh_sub sh_rows sh_cols sh_ldr] in W.
  unfold w_addrs, wconc. cbn [w_off w_rows w_cols w_sep]. unfold win_striped in W. cbn [sh_base sh_rows sh_cols sh_ldr] in W.
  rewrite W by (auto; lia). f_equal. rewrite <- (pairs_places v H1), map_map. apply map_ext. intros p.
  unfold addr, getLdRows, place_in. cbn [sh_o sh_base sh_sub sh_ldr]. f_equal. lia.
Qed.

Lemma in_places v q : 1 <= v_rows v -> In q (wplaces v) <-> covers v q = true.
Proof.
  intros H. rewrite <- (pairs_places v H). unfold covers. rewrite existsb_exists, in_map_iff. split.
  - intros ([j i] & E & Hp). unfold pairs in Hp. apply in_flat_map in Hp. destruct Hp as (j' & Hj & Hp).
    apply in_map_iff in Hp. destruct Hp as (i' & E' & Hi). injection E' as -> ->. cbn [fst snd] in E.
    exists (i, j). split; [now apply in_prod|]. cbn [fst snd]. now apply Nat.eqb_eq.
  - intros ([i j] & Hp & E). apply in_prod_iff in Hp. destruct Hp as (Hi & Hj). cbn [fst snd] in E. apply Nat.eqb_eq in E.
    exists (j, i). split; [exact E|]. unfold pairs. apply in_flat_map. exists j. split; auto. apply in_map_iff. now exists i.
Qed.

Lemma places_lt regs v g q : wwf regs v -> nth_error regs (v_region v) = Some g -> In q (wplaces v) -> q < length (r_cells g).
Proof.
  intros W Hg Hq. unfold wplaces in Hq. apply in_map_iff in Hq. destruct Hq as (k & <- & Hk). apply in_seq in Hk.
  eapply place_lt; eauto.
  - apply Nat.mod_upper_bound. lia.
  - apply Nat.div_lt_upper_bound; lia.
Qed.

Lemma fill_places (v : T) l : forall b : buf T, (forall q, In q l -> q < length b) ->
  exists b', foldM (fun p b => wrz b p v) (map Z.of_nat l) b = Ok b' /\ length b' = length b /\
    forall q, nth_error b' q = if in_dec Nat.eq_dec q l then Some (Some v) else nth_error b q.
Proof.
  induction l as [|p l IH]; intros b H.
  - exists b. split; [reflexivity|]. split; auto.
  - cbn [map foldM]. rewrite wrz_nat. assert (Lp : p < length b) by (apply H; now left).
    rewrite (wrc_ok b p (Some v) Lp). cbn [bind].
    destruct (IH (upd b p (Some v))) as (b' & E & L & N).
    { intros q Hq. rewrite upd_length. apply H. now right. }
    exists b'. split; [exact E|]. split; [now rewrite L, upd_length|]. intros q. rewrite N.
    destruct (in_dec Nat.eq_dec q l) as [Hq|Hq], (in_dec Nat.eq_dec q (p :: l)) as [Hq'|Hq']; auto.
    + exfalso. apply Hq'. now right.
    + destruct Hq' as [->|Hq']; [now apply nth_error_upd_eq|contradiction].
    + rewrite nth_error_upd_ne; auto. intros ->. apply Hq'. now left.
Qed.

Lemma fill_result (v : T) u (b b' : buf T) : 1 <= v_rows u ->
  length b' = length b ->
  (forall q, nth_error b' q = if in_dec Nat.eq_dec q (wplaces u) then Some (Some v) else nth_error b q) ->
  (forall q, In q (wplaces u) -> q < length b) ->
  b' = map (fun q => if covers u q then Some v else nth q b None) (seq 0 (length b)).
Proof.
  intros Hr L N B. apply nth_error_ext. intros q. rewrite N, nth_error_map, nth_error_seq.
  destruct (Nat.ltb_spec q (length b)) as [Hq|Hq].
  - cbn [option_map Nat.add].
    pose proof (in_places u q Hr) as I1. destruct (in_dec Nat.eq_dec q (wplaces u)) as [H|H].
    + rewrite (proj1 I1 H). reflexivity.
    + destruct (covers u q) eqn:E; [exfalso; apply H; now apply I1|].
      now rewrite (nth_error_nth' b None Hq).
  - destruct (in_dec Nat.eq_dec q (wplaces u)) as [H|H]; [apply B in H; lia|].
    now rewrite (proj2 (nth_error_None b q)) by lia.
Qed.

(** Reading all elements of a window into a fresh memory. *)
Lemma all_values_nth (l : list (option (option T))) vs : all_values l = Some vs -> l = map (fun v => Some (Some v)) vs.
Proof.
  revert vs. induction l as [|[[v|]|] l IH]; intros vs H; cbn in H; try discriminate.
  - now injection H as <-.
  - destruct (all_values l) as [l'|]; [|discriminate]. injection H as <-. cbn. f_equal. now apply IH.
Qed.

Lemma dense_fold (b : buf T) (f : T -> T) l : forall vs (done : buf T) n0,
  map (nth_error b) l = map (fun v => Some (Some v)) vs -> length done = n0 ->
  foldM (fun '(k, p) d => do v <- rdz b p; wr d k (f v)) (combine (seq n0 (length l)) (map Z.of_nat l)) (done ++ alloc (length l)) =
  Ok (done ++ map (fun v => Some (f v)) vs).
Proof.
  induction l as [|p l IH]; intros vs done n0 E L.
  - destruct vs; [|discriminate]. reflexivity.
  - destruct vs as [|v vs]; [discriminate|]. cbn [map] in E. injection E as E1 E.
    cbn [length seq map combine foldM]. rewrite rdz_nat. rewrite (proj2 (rd_ok b p v) E1). cbn [bind].
    assert (WR : wr (done ++ alloc (S (length l))) n0 (f v) = Ok ((done ++ [Some (f v)]) ++ alloc (length l))).
    { rewrite wr_ok by (rewrite app_length, alloc_length; lia). f_equal.
      rewrite <- app_assoc. subst n0. clear. induction done as [|c d IH']; [reflexivity|].
      cbn [app length upd]. f_equal. exact IH'. }
    rewrite WR. cbn [bind]. rewrite (IH vs (done ++ [Some (f v)]) (S n0) E) by (rewrite app_length; cbn; lia).
    now rewrite <- app_assoc.
Qed.

(** ** The simulation *)
Context (dbg : bool).
Record WRel x m : Prop := {
  wr_mem : Rel (x_mem x) (w_sys m);
  wr_dims : w_dims m = x_dims x;
  wr_len : length (x_dims x) = length (handles (x_mem x));
  wr_wins : w_wins m = map (option_map wconc) (x_wins x);
  wr_wf : forall k v, nth_error (x_wins x) k = Some (Some v) -> wwf (regions (x_mem x)) v
}.

Definition adds_handle (o : op T) : nat :=
  match o with
  | ODefault | OSized _ | OList _ | OCopyCtor _ | OMoveCtor _ | OConvCtor _ | OProxy _ _ | OProxyOf _ => 1
  | _ => 0
  end.
Lemma write_handles a h f : handles (write a h f) = handles a.
Proof. destruct h; cbn; auto; destruct (nth_error (regions a) r); auto. Qed.
Lemma astep_handles a o a1 z : astep a o = Some (a1, z) -> length (handles a1) = adds_handle o + length (handles a).
Proof.
  intros E. destruct o as [|n|vs|s|s|s|vs|r n|s|s n|d s|d s|u w|s v|s i v|s i|s vs|s]; cbn [astep] in E;
  repeat match type of E with
  | match live a ?s with _ => _ end = _ => let H := fresh "L" in destruct (live a s) eqn:H; [|discriminate E]
  | match contents a ?h with _ => _ end = _ => let H := fresh "C" in destruct (contents a h) eqn:H; [|discriminate E]
  | match nth_error ?l ?i with _ => _ end = _ => let H := fresh "N" in destruct (nth_error l i) eqn:H; try discriminate E
  | match r_kind ?g with _ => _ end = _ => destruct (r_kind g); try discriminate E
  | (if ?b then _ else _) = _ => let H := fresh "B" in destruct b eqn:H; try discriminate E
  end; injection E as <- <-; cbn [add put region_new regions handles adds_handle Nat.add];
  rewrite ?write_handles, ?upd_length, ?app_length; cbn [length]; rewrite ?upd_length; lia.
Qed.

Lemma wr_store x m so ds x1 z : WRel x m -> on_mem x so ds = Some (x1, z) ->
  length ds = adds_handle so + length (handles (x_mem x)) ->
  exists m1, w_storage m so ds = Ok (m1, z) /\ WRel x1 m1.
Proof.
  intros R E L. unfold on_mem in E. destruct (astep (x_mem x) so) as [[a o]|] eqn:S; [|discriminate].
  injection E as <- <-. destruct (astep_sim _ _ _ _ _ (wr_mem _ _ R) S) as (y1 & E1 & R1).
  unfold w_storage. rewrite E1. cbn [bind]. eexists. split; [reflexivity|].
  constructor; cbn [x_mem x_dims x_wins w_sys w_dims w_wins]; auto.
  - rewrite L. symmetry. now apply astep_handles with (z := o).
  - apply R.
  - intros k v Hk. eapply wwf_grows; [|eapply wr_wf; eauto]. eapply astep_grows; [apply R|exact S].
Qed.

Lemma swin_get x m w v : WRel x m -> swin_of x w = Some v ->
  nth_error (x_wins x) w = Some (Some v) /\ win_of m w = Ok (wconc v) /\ wwf (regions (x_mem x)) v.
Proof.
  intros R E. unfold swin_of in E. destruct (nth_error (x_wins x) w) as [[u|]|] eqn:H; try discriminate.
  injection E as ->. split; auto. split; [|eapply wr_wf; eauto].
  unfold win_of. rewrite (wr_wins _ _ R), nth_error_map, H. reflexivity.
Qed.

Lemma dims_get x m s d : WRel x m -> nth_error (x_dims x) s = Some d -> dims_of m s = Ok d.
Proof. intros R H. unfold dims_of. now rewrite (wr_dims _ _ R), H. Qed.

(** The block behind a window whose memory is there. *)
Lemma seen_block x m v b : WRel x m -> seen x v = Some b ->
  exists g k, nth_error (regions (x_mem x)) (v_region v) = Some g /\ b = r_cells g /\
    nth_error (blocks (w_sys m)) (v_region v) = Some k /\ b_live k = true /\ b_cells k = r_cells g.
Proof.
  intros R E. unfold seen in E. destruct (nth_error (regions (x_mem x)) (v_region v)) as [g|] eqn:Hg; [|discriminate].
  destruct (present (x_mem x) (v_region v)) eqn:P; [|discriminate]. injection E as <-.
  pose proof (proj1 (RB_memory _ _) (rel_mem _ _ (wr_mem _ _ R))) as (_ & M).
  destruct (M _ _ Hg) as (k & Hk & Ck & _ & Lk). rewrite P in Lk. exists g, k. auto.
Qed.
Lemma gone_block x m v g : WRel x m -> nth_error (regions (x_mem x)) (v_region v) = Some g ->
  present (x_mem x) (v_region v) = false ->
  exists k, nth_error (blocks (w_sys m)) (v_region v) = Some k /\ b_live k = false.
Proof.
  intros R Hg P. pose proof (proj1 (RB_memory _ _) (rel_mem _ _ (wr_mem _ _ R))) as (_ & M).
  destruct (M _ _ Hg) as (k & Hk & _ & _ & Lk). rewrite P in Lk. exists k. auto.
Qed.

Lemma set_rel x m r g k f : WRel x m -> nth_error (regions (x_mem x)) r = Some g ->
  nth_error (blocks (w_sys m)) r = Some k -> b_live k = true -> length (f (r_cells g)) = length (r_cells g) ->
  WRel (set_region x r f) (set_cells m r k (f (r_cells g))).
Proof.
  intros R Hg Hk LV L. unfold set_region. rewrite Hg. unfold set_cells.
  constructor; cbn [x_mem x_dims x_wins w_sys w_dims w_wins handles regions]; try apply R.
  - apply (write_rel (x_mem x) (w_sys m) (HView r 0) r g k); auto. apply R.
  - intros j v Hj. eapply wwf_grows; [|eapply wr_wf; eauto]. now apply grows_upd with (g := g).
Qed.

Lemma pos_ok sh i j : i < sh_rows sh -> j < sh_cols sh -> sh_o sh = ColMajor ->
  position dbg sh i j = Ok (i + j * getLdRows sh).
Proof.
  intros Hi Hj Ho. unfold position. rewrite Ho.
  destruct (Nat.ltb_spec i (sh_rows sh)); [|lia]. destruct (Nat.ltb_spec j (sh_cols sh)); [|lia].
  unfold cassert. now destruct dbg.
Qed.

Lemma cell_get x m v b i j c : WRel x m -> wwf (regions (x_mem x)) v -> seen x v = Some b -> v_ldc v = Some c ->
  i < v_rows v -> j < v_cols v ->
  exists g k, nth_error (regions (x_mem x)) (v_region v) = Some g /\ b = r_cells g /\
    nth_error (blocks (w_sys m)) (v_region v) = Some k /\ b_live k = true /\ b_cells k = r_cells g /\
    w_cell dbg m (wconc v) i j = Ok ((v_region v, k), place_in v i j) /\ place_in v i j < length (r_cells g).
Proof.
  intros R W E C Hi Hj. destruct (seen_block _ _ _ _ R E) as (g & k & Hg & -> & Hk & LV & Ck).
  exists g, k. pose proof (place_lt _ _ _ _ _ W Hg Hi Hj) as PL. do 5 (split; [auto|]). split; [|auto].
  unfold w_cell. rewrite pos_ok by auto. cbn [bind]. unfold w_shape, getLdRows. cbn [sh_sub sh_ldr].
  unfold wconc. cbn [w_data w_off w_ldr]. rewrite C.
  replace (v_first v + (i + j * v_stride v)) with (place_in v i j) by (unfold place_in; lia).
  unfold h_cell. rewrite Hk, LV, Ck. cbn [negb]. destruct (Nat.ltb_spec (place_in v i j) (length (r_cells g))); [|lia].
  reflexivity.
Qed.

Lemma places_nonempty v : traversable v = true -> exists q l, wplaces v = q :: l.
Proof.
  intros H. unfold traversable in H. apply andb_prop in H. destruct H as (H & _). apply andb_prop in H. destruct H as (H1 & H2).
  apply Nat.leb_le in H1, H2. unfold wplaces. destruct (v_rows v * v_cols v) as [|n] eqn:E; [nia|]. cbn [seq map]. eauto.
Qed.
Lemma traversable_rows v : traversable v = true -> 1 <= v_rows v.
Proof. intros H. unfold traversable in H. apply andb_prop in H. destruct H as (H & _). apply andb_prop in H. now apply Nat.leb_le. Qed.

Lemma w_all_ok x m v b z : WRel x m -> wwf (regions (x_mem x)) v -> seen x v = Some b -> traversable v = true ->
  exists m1, w_all m (wconc v) z = Ok m1 /\
    WRel (set_region x (v_region v) (fun b => map (fun q => if covers v q then Some z else nth q b None) (seq 0 (length b)))) m1.
Proof.
  intros R W E TR. destruct (seen_block _ _ _ _ R E) as (g & k & Hg & -> & Hk & LV & Ck).
  unfold w_all. rewrite (w_addrs_ok _ _ W TR). cbn [bind].
  destruct (fill_places z (wplaces v) (r_cells g)) as (b' & F & L & N).
  { intros q Hq. eapply places_lt; eauto. }
  destruct (places_nonempty v TR) as (q0 & l0 & Q).
  assert (NE : exists z0 l1, map Z.of_nat (wplaces v) = z0 :: l1) by (rewrite Q; cbn; eauto).
  destruct NE as (z0 & l1 & NE). rewrite NE in F |- *.
  unfold w_block. cbn [wconc w_data]. rewrite Hk, LV. cbn [bind fst snd]. rewrite Ck.
  rewrite F. cbn [bind]. eexists. split; [reflexivity|].
  rewrite (fill_result z v (r_cells g) b' (traversable_rows v TR) L N (fun q Hq => places_lt _ _ _ _ W Hg Hq)).
  apply (set_rel x m (v_region v) g k (fun b => map (fun q => if covers v q then Some z else nth q b None) (seq 0 (length b)))); auto.
  now rewrite map_length, seq_length.
Qed.

Lemma w_dense_ok x m v b vs chk z : WRel x m -> wwf (regions (x_mem x)) v -> seen x v = Some b -> traversable v = true ->
  window_values b v = Some vs ->
  w_dense m (wconc v) chk z = Ok (map Some (map (fun u => if chk u then u else z) vs)).
Proof.
  intros R W E TR V. destruct (seen_block _ _ _ _ R E) as (g & k & Hg & -> & Hk & LV & Ck).
  unfold w_dense. rewrite (w_addrs_ok _ _ W TR). cbn [bind].
  apply all_values_nth in V. unfold window_values in V.
  assert (V' : map (nth_error (r_cells g)) (wplaces v) = map (fun u => Some (Some u)) vs).
  { rewrite <- V. unfold wplaces. now rewrite map_map. }
  assert (LL : length (wplaces v) = v_rows v * v_cols v) by (unfold wplaces; now rewrite map_length, seq_length).
  pose proof (dense_fold (r_cells g) (fun u => if chk u then u else z) (wplaces v) vs [] 0 V' eq_refl) as D.
  cbn [app] in D. rewrite <- (map_length Z.of_nat (wplaces v)) in D at 1. rewrite LL in D.
  destruct (places_nonempty v TR) as (q0 & l0 & Q).
  assert (NE : exists z0 l1, map Z.of_nat (wplaces v) = z0 :: l1) by (rewrite Q; cbn; eauto).
  destruct NE as (z0 & l1 & NE). rewrite NE in D |- *.
  unfold w_block. cbn [wconc w_data]. rewrite Hk, LV. cbn [bind fst snd]. rewrite Ck.
  unfold enum. cbn [wconc w_rows w_cols]. rewrite D. now rewrite map_map.
Qed.

Lemma win_add x m v : WRel x m -> wwf (regions (x_mem x)) v ->
  WRel (mkWst (x_mem x) (x_dims x) (x_wins x ++ [Some v])) (mkWsys (w_sys m) (x_dims x) (w_wins m ++ [Some (wconc v)])).
Proof.
  intros R W. constructor; cbn [x_mem x_dims x_wins w_sys w_dims w_wins]; try apply R; try reflexivity.
  - rewrite map_app, (wr_wins _ _ R). reflexivity.
  - intros k u Hk. apply snoc_cases in Hk. destruct Hk as [[_ E]|[_ Hk]]; [now injection E as ->|eapply wr_wf; eauto].
Qed.
Lemma win_upd x m d (v : option swin) : WRel x m -> (forall u, v = Some u -> wwf (regions (x_mem x)) u) ->
  WRel (mkWst (x_mem x) (x_dims x) (upd (x_wins x) d v)) (mkWsys (w_sys m) (x_dims x) (upd (w_wins m) d (option_map wconc v))).
Proof.
  intros R W. constructor; cbn [x_mem x_dims x_wins w_sys w_dims w_wins]; try apply R; try reflexivity.
  - now rewrite map_upd, (wr_wins _ _ R).
  - intros k u Hk. apply upd_cases in Hk. destruct Hk as [[_ E]|[_ Hk]]; [now apply W|eapply wr_wf; eauto].
Qed.

Ltac split_x E :=
  repeat match type of E with
  | match nth_error ?l ?i with _ => _ end = _ => let H := fresh "N" in destruct (nth_error l i) eqn:H; try discriminate E
  | match swin_of ?x ?w with _ => _ end = _ => let H := fresh "V" in destruct (swin_of x w) eqn:H; try discriminate E
  | match seen ?x ?w with _ => _ end = _ => let H := fresh "Sn" in destruct (seen x w) eqn:H; try discriminate E
  | match v_ldc ?w with _ => _ end = _ => let H := fresh "Ld" in destruct (v_ldc w) eqn:H; try discriminate E
  | match window_values ?b ?w with _ => _ end = _ => let H := fresh "Wv" in destruct (window_values b w) eqn:H; try discriminate E
  | (let (_, _) := ?p in _) = _ => destruct p
  | match live ?x ?w with _ => _ end = _ => let H := fresh "Lv" in destruct (live x w) as [[?|? ?|? ?]|] eqn:H; try discriminate E
  | (if ?b then _ else _) = _ => let H := fresh "B" in destruct b eqn:H; try discriminate E
  end.

Lemma new_wwf x m s (r c nr nc br bc g n : nat) : WRel x m -> (live (x_mem x) s = Some (HOwn g n) \/ live (x_mem x) s = Some (HView g n)) ->
  (br + nr <=? r) && (bc + nc <=? c) && (n =? r * c) = true ->
  wwf (regions (x_mem x)) (mkSwin g (br + bc * r) nr nc r (Some c)) /\
  exists h, live (x_mem x) s = Some h /\ st_data (conc h) = Some g.
Proof.
  intros R L B. apply andb_prop in B. destruct B as (B & B3). apply andb_prop in B. destruct B as (B1 & B2).
  apply Nat.leb_le in B1, B2. apply Nat.eqb_eq in B3.
  assert (exists k, nth_error (regions (x_mem x)) g = Some k /\ n <= length (r_cells k)) as (k & Hk & Lk).
  { destruct L as [L|L]; destruct (live_get _ _ _ _ (wr_mem _ _ R) L) as (Hh & _);
      pose proof (wf_hok _ _ _ _ (rel_wf _ _ (wr_mem _ _ R)) Hh) as K; cbn in K.
    - destruct K as (k & Hk & _ & Lk). exists k. split; auto. lia.
    - destruct K as (k & Hk & Lk). eauto. }
  split.
  - exists k, br, bc. cbn [v_region v_first v_stride v_rows v_cols]. repeat split; auto. nia.
  - destruct L as [L|L]; eexists; (split; [exact L|reflexivity]).
Qed.

Lemma xstep_sim x m o x1 z : WRel x m -> xstep x o = Some (x1, z) ->
  exists m1, wstep dbg m o = Ok (m1, z) /\ WRel x1 m1.
Proof.
  intros R E. pose proof (wr_len _ _ R) as LN. pose proof (wr_dims _ _ R) as DD.
  destruct o as [r c|vs|b r c|s|s|d s|d s|u w|s r c|s v|s i j v|s i j|s|s nr nc br bc|w|w|d w|d w|w v|w i j v|w i j|w|w|w chk zz|w];
    cbn [xstep] in E; cbn [wstep]; rewrite ?DD; split_x E;
    repeat match goal with H : nth_error (x_dims x) _ = Some _ |- _ => rewrite (dims_get _ _ _ _ R H); revert H end; intros;
    cbn [bind fst snd];
    try (apply wr_store with (x := x); auto; rewrite ?app_length, ?upd_length; cbn [adds_handle length]; rewrite ?upd_length; lia).
  - apply andb_prop in B. destruct B as (B1 & B2). apply Nat.ltb_lt in B1, B2. rewrite pos_ok by auto. cbn [bind].
    apply wr_store with (x := x); auto.
  - apply andb_prop in B. destruct B as (B1 & B2). apply Nat.ltb_lt in B1, B2. rewrite pos_ok by auto. cbn [bind].
    apply wr_store with (x := x); auto.
  - destruct (new_wwf x m s _ _ _ _ _ _ _ _ R (or_introl Lv) B) as (W & _).
    destruct (live_get _ _ _ _ (wr_mem _ _ R) Lv) as (_ & ->). cbn [bind]. injection E as <- <-.
    cbn [bind fst snd conc st_data].
    eexists. split; [reflexivity|]. apply (win_add _ _ _ R W).
  - destruct (new_wwf x m s _ _ _ _ _ _ _ _ R (or_intror Lv) B) as (W & _).
    destruct (live_get _ _ _ _ (wr_mem _ _ R) Lv) as (_ & ->). cbn [bind]. injection E as <- <-.
    cbn [bind fst snd conc st_data].
    eexists. split; [reflexivity|]. apply (win_add _ _ _ R W).
  - injection E as <- <-. destruct (swin_get _ _ _ _ R V) as (_ & -> & W). cbn [bind]. eexists. split; [reflexivity|].
    now apply win_add.
  - injection E as <- <-. destruct (swin_get _ _ _ _ R V) as (_ & -> & W). cbn [bind]. eexists. split; [reflexivity|].
    apply (win_add x m (mkSwin (v_region s) (v_first s) (v_rows s) (v_cols s) (v_stride s) None) R). exact W.
  - injection E as <- <-. destruct (swin_get _ _ _ _ R V) as (_ & -> & W). cbn [bind].
    destruct (swin_get _ _ _ _ R V0) as (_ & -> & _). cbn [bind]. eexists. split; [reflexivity|].
    apply (win_upd x m d (Some s) R). intros u Hu. now injection Hu as <-.
  - injection E as <- <-. destruct (swin_get _ _ _ _ R V) as (_ & -> & W). cbn [bind].
    destruct (swin_get _ _ _ _ R V0) as (_ & -> & _). cbn [bind]. eexists. split; [reflexivity|].
    apply (win_upd x m d (Some s) R). intros u Hu. now injection Hu as <-.
  - injection E as <- <-. destruct (swin_get _ _ _ _ R V) as (_ & -> & W). cbn [bind].
    destruct (w_all_ok _ _ _ _ v R W Sn B) as (m1 & -> & R1). cbn [bind]. eauto.
  - injection E as <- <-. destruct (swin_get _ _ _ _ R V) as (_ & -> & W). cbn [bind].
    apply andb_prop in B. destruct B as (B1 & B2). apply Nat.ltb_lt in B1, B2.
    destruct (cell_get _ _ _ _ i j _ R W Sn Ld B1 B2) as (g & k & Hg & -> & Hk & LV & Ck & -> & PL). cbn [bind fst snd].
    eexists. split; [reflexivity|]. rewrite Ck.
    apply (set_rel x m (v_region s) g k (fun b => upd b (place_in s i j) (Some v))); auto. apply upd_length.
  - injection E as <- <-. destruct (swin_get _ _ _ _ R V) as (_ & -> & W). cbn [bind].
    apply andb_prop in B. destruct B as (B1 & B2). apply Nat.ltb_lt in B1, B2.
    destruct (cell_get _ _ _ _ i j _ R W Sn Ld B1 B2) as (g & k & Hg & -> & Hk & LV & Ck & -> & PL). cbn [bind fst snd].
    rewrite Ck. rewrite (proj2 (rdc_ok _ _ _) N). cbn [bind]. eauto.
  - injection E as <- <-. destruct (swin_get _ _ _ _ R V) as (_ & -> & W). cbn [bind]. eauto.
  - injection E as <- <-. destruct (swin_get _ _ _ _ R V) as (_ & -> & W). cbn [bind].
    unfold wconc. cbn [w_ldr w_ldc]. rewrite Ld. eauto.
  - destruct (swin_get _ _ _ _ R V) as (_ & -> & W). cbn [bind].
    rewrite (w_dense_ok _ _ _ _ _ chk zz R W Sn B Wv). cbn [bind].
    destruct (wr_store x m _ _ x1 z R E) as (m1 & E1 & R1); [rewrite app_length; cbn [adds_handle length]; lia|].
    unfold w_storage in E1. cbn [step bind] in E1. injection E1 as <- <-. eexists. split; [reflexivity|exact R1].
  - injection E as <- <-. destruct (swin_get _ _ _ _ R V) as (_ & -> & W). cbn [bind]. eexists. split; [reflexivity|].
    apply (win_upd x m w None R). discriminate.
Qed.

Lemma wrel0 : WRel wst0 wsys0.
Proof. constructor; cbn; auto; [apply rel0|]. intros [|k]; discriminate. Qed.

Lemma xrun_sim ops : forall x m x1 zs, WRel x m -> xrun x ops = Some (x1, zs) ->
  exists m1, wrun dbg m ops = Ok (m1, zs) /\ WRel x1 m1.
Proof.
  induction ops as [|o ops IH]; intros x m x1 zs R E; cbn [xrun wrun] in *.
  - injection E as <- <-. eauto.
  - destruct (xstep x o) as [[x2 z]|] eqn:S; [|discriminate]. destruct (xrun x2 ops) as [[x3 zs']|] eqn:S'; [|discriminate].
    injection E as <- <-. destruct (xstep_sim _ _ _ _ _ R S) as (m2 & E1 & R1). destruct (IH _ _ _ _ R1 S') as (m3 & E2 & R2).
    rewrite E1. cbn [bind]. rewrite E2. cbn [bind]. eauto.
Qed.
End P.
