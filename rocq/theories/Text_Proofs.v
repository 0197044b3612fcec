(** Proofs about pictures and printed matrices. *)
From Coq Require Import String Ascii DecimalString.
From Verif Require Import Base BaseLemmas Dense_Model Dense_Spec Dense_Proofs Dense2_Proofs Sparse_Model Dyn_Model Text_Model Text_Spec.
Local Open Scope string_scope.

Lemma app_s_assoc (a b c : string) : (a ++ b) ++ c = a ++ b ++ c.
Proof. induction a; simpl; congruence. Qed.
Lemma app_s_nil (a : string) : a ++ "" = a.
Proof. induction a; simpl; congruence. Qed.
Lemma len_app (a b : string) : String.length (a ++ b) = String.length a + String.length b.
Proof. induction a; simpl; congruence. Qed.
Lemma cat_app l1 l2 : cat (l1 ++ l2) = cat l1 ++ cat l2.
Proof. induction l1; simpl; auto. now rewrite IHl1, app_s_assoc. Qed.

Lemma foldM_text {X} (f : X -> string -> res string) (g : X -> string) l : forall out,
  (forall x out, In x l -> f x out = Ok (out ++ g x)) -> foldM f l out = Ok (out ++ cat (map g l)).
Proof.
  induction l as [|x l IH]; intros out H; cbn [foldM map cat fold_right].
  - now rewrite app_s_nil.
  - rewrite H by now left. cbn [bind]. rewrite IH by (intros; apply H; now right). now rewrite app_s_assoc.
Qed.

Lemma free_app a s t : free_of a (s ++ t) <-> free_of a s /\ free_of a t.
Proof. induction s; simpl; tauto. Qed.
Lemma free_cat a l : (forall s, In s l -> free_of a s) -> free_of a (cat l).
Proof. induction l; simpl; intros H; auto. apply free_app; split; auto. Qed.

(** ** Quoted strings *)
Lemma sf_skip s r : free_of "034" s -> strings_from None (s ++ r) = strings_from None r.
Proof.
  induction s as [|a s IH]; intros H; auto. destruct H as [H1 H2]. simpl.
  destruct (Ascii.eqb_spec a "034"); [contradiction|]. auto.
Qed.
Lemma sf_in s r : forall t, free_of "034" s -> strings_from (Some t) (s ++ r) = strings_from (Some (t ++ s)) r.
Proof.
  induction s as [|a s IH]; intros t H; [now rewrite app_s_nil|]. destruct H as [H1 H2]. simpl.
  destruct (Ascii.eqb_spec a "034"); [contradiction|]. rewrite IH by auto. now rewrite app_s_assoc.
Qed.
Lemma sf_quote s r : free_of "034" s -> strings_from None (dq ++ s ++ dq ++ r) = s :: strings_from None r.
Proof. intros H. unfold dq at 1. simpl. rewrite sf_in by auto. reflexivity. Qed.

Lemma num_free a n : (Ascii.nat_of_ascii a < 48 \/ 57 < Ascii.nat_of_ascii a) -> free_of a (num n).
Proof.
  intros Ha. assert (G : forall u, free_of a (NilEmpty.string_of_uint u)).
  { induction u; simpl; auto; split; auto; intros <-; revert Ha; vm_compute; lia. }
  unfold num, NilZero.string_of_uint. destruct (Nat.to_uint n) eqn:E; auto; try (rewrite <- E; apply G).
  simpl. split; auto. intros <-. revert Ha; vm_compute; lia.
Qed.

(** ** Pictures *)
Section Pattern.
  Context {T D : Type} (absT : T -> T) (ge : T -> D -> bool) (s : psettings D).

  Lemma pick_pixel a : is_pixel ge s a (pick ge (ps_palette s) a (ps_bgi s)).
  Proof.
    unfold is_pixel. generalize (ps_palette s) as l, (ps_bgi s) as bg. induction l as [|c l IH]; intros bg; simpl.
    - right. split; auto. intros c [].
    - destruct (ge a (c_thr c)) eqn:E.
      + left. exists 0, c. repeat split; auto. intros k' c' H; lia.
      + destruct (IH bg) as [(k & c1 & H1 & H2 & H3 & H4)|[H1 H2]].
        * left. exists (S k), c1. repeat split; auto. intros [|k'] c' Hk Hn; simpl in Hn.
          -- congruence.
          -- apply (H4 k'); auto; lia.
        * right. split; auto. intros c' [<-|H]; auto.
  Qed.

  Lemma pixel_free a p : clean s -> is_pixel ge s a p -> free_of "034" p.
  Proof.
    intros (H1 & _ & H3) [(k & c & Hk & _ & -> & _)|[_ ->]]; auto. apply H3. eapply nth_error_In; eauto.
  Qed.
  Lemma pixel_len a p : one_char s -> is_pixel ge s a p -> String.length p = 1.
  Proof.
    intros (H1 & H3) [(k & c & Hk & _ & -> & _)|[_ ->]]; auto. apply H3. eapply nth_error_In; eauto.
  Qed.
  Lemma pixel_unique a p q : is_pixel ge s a p -> is_pixel ge s a q -> p = q.
  Proof.
    intros [(k & c & Hk & Hg & -> & Hl)|[Hl ->]] [(k' & c' & Hk' & Hg' & -> & Hl')|[Hl' ->]]; auto.
    - destruct (Nat.lt_trichotomy k k') as [H|[H|H]].
      + rewrite (Hl' k c) in Hg; auto. discriminate.
      + subst. congruence.
      + rewrite (Hl k' c') in Hg'; auto. discriminate.
    - rewrite Hl' in Hg; [discriminate|]. eapply nth_error_In; eauto.
    - rewrite Hl in Hg'; [discriminate|]. eapply nth_error_In; eauto.
  Qed.

  Definition pix (v : T) : string := pick ge (ps_palette s) (absT v) (ps_bgi s).
  Definition row_text (f : nat -> nat -> T) (c i : nat) : string := cat (map (fun j => pix (f i j)) (seq 0 c)).

  Lemma pattern_rows (d : dense T) r c f (out : string) : view d r c f -> sh_ok (d_sh d) (length (d_buf d)) ->
    forM (d_rows d) (fun i out =>
      do ads <- cur_addrs (d_sh d) DRow DCol i;
      do out <- foldM (fun a out => do v <- rd (d_buf d) a; Ok (out ++ pick ge (ps_palette s) (absT v) (ps_bgi s)))
                      ads (out ++ dq);
      Ok (if (S i =? d_rows d)%nat then out ++ dq else out ++ dq ++ "," ++ nl)) out =
    Ok (out ++ cat (map (fun i => dq ++ row_text f c i ++ dq ++ (if (S i =? r)%nat then "" else "," ++ nl)) (seq 0 r))).
  Proof.
    intros Hv (Hld & _ & _). pose proof Hv as (Hr & Hc & _). unfold forM. rewrite Hr.
    apply foldM_text. intros i o Hi. apply in_seq in Hi.
    rewrite cur_rc by (unfold d_rows in Hr; auto; lia). cbn [bind]. rewrite foldM_map.
    unfold d_cols in Hc. rewrite Hc.
    rewrite (foldM_text _ (fun j => pix (f i j))).
    - cbn [bind]. f_equal. rewrite !app_s_assoc. destruct (Nat.eqb_spec (S i) r); reflexivity.
    - intros j o' Hj. apply in_seq in Hj.
      pose proof (view_cell d r c f i j Hv ltac:(lia) ltac:(lia)) as E. apply rd_ok in E. rewrite E. reflexivity.
  Qed.

  Lemma sf_rows (row : nat -> string) r R : (forall i, free_of "034" (row i)) -> free_of "034" R ->
    forall l, strings_from None (cat (map (fun i => dq ++ row i ++ dq ++ (if (S i =? r)%nat then "" else "," ++ nl)) l) ++ R)
    = (map row l ++ strings_from None R)%list.
  Proof.
    intros H HR. induction l as [|i l IH]; auto. cbn [map cat fold_right List.app].
    rewrite !app_s_assoc. rewrite sf_quote by auto. f_equal.
    rewrite <- IH. destruct (S i =? r)%nat.
    - reflexivity.
    - rewrite sf_skip by (repeat split; discriminate). reflexivity.
  Qed.

  Lemma sf_line i c R : free_of "034" i -> free_of "034" c ->
    strings_from None (color_line i c ++ R) = color_text i c :: strings_from None R.
  Proof.
    intros H1 H2. unfold color_line, color_text.
    replace ((dq ++ i ++ tab ++ "c #" ++ c ++ dq ++ "," ++ nl) ++ R)
      with (dq ++ (i ++ tab ++ "c #" ++ c) ++ dq ++ "," ++ nl ++ R) by (rewrite !app_s_assoc; reflexivity).
    rewrite sf_quote.
    - reflexivity.
    - rewrite !free_app. repeat split; auto; discriminate.
  Qed.

  Lemma sf_colors (l : list (color D)) R :
    (forall c, In c l -> free_of "034" (c_index c) /\ free_of "034" (c_color c)) ->
    strings_from None (cat (map (fun c => color_line (c_index c) (c_color c)) l) ++ R) =
    (map (fun c => color_text (c_index c) (c_color c)) l ++ strings_from None R)%list.
  Proof.
    induction l as [|c l IH]; intros H; auto. cbn [map cat fold_right List.app].
    destruct (H c (or_introl eq_refl)) as [H1 H2].
    rewrite app_s_assoc, sf_line by auto. f_equal. apply IH. intros; apply H; now right.
  Qed.

  Lemma pattern_spec (d : dense T) r c f : view d r c f -> sh_ok (d_sh d) (length (d_buf d)) -> clean s ->
    exists t, pattern absT ge s d = Ok t /\
      strings_of t = (header s r c :: map (fun c => color_text (c_index c) (c_color c)) (ps_palette s) ++
                      color_text (ps_bgi s) (ps_bgc s) :: map (row_text f c) (seq 0 r))%list.
  Proof.
    intros Hv Hok Hcl. pose proof Hv as (Hr & Hc & _). pose proof Hcl as (C1 & C2 & C3).
    unfold pattern. cbn zeta. rewrite (pattern_rows d r c f _ Hv Hok). cbn [bind].
    eexists; split; [reflexivity|]. unfold strings_of. rewrite Hr, Hc, !app_s_assoc.
    rewrite sf_skip by (repeat split; discriminate). rewrite sf_skip by (repeat split; discriminate).
    rewrite sf_skip by (repeat split; discriminate). rewrite sf_skip by (repeat split; discriminate).
    match goal with |- strings_from None (dq ++ num c ++ " " ++ num r ++ " " ++ ?n ++ " 1" ++ dq ++ ?R) = _ =>
      replace (dq ++ num c ++ " " ++ num r ++ " " ++ n ++ " 1" ++ dq ++ R)
        with (dq ++ header s r c ++ dq ++ R) by (unfold header; rewrite !app_s_assoc; reflexivity) end.
    rewrite sf_quote.
    2: { unfold header. rewrite !free_app. repeat split; try discriminate; apply num_free; vm_compute; lia. }
    f_equal. rewrite sf_skip by (repeat split; discriminate). rewrite sf_skip by (repeat split; discriminate).
    rewrite sf_colors by auto. f_equal. rewrite sf_line by auto. f_equal.
    rewrite sf_skip by (repeat split; discriminate). rewrite sf_skip by (repeat split; discriminate).
    rewrite sf_rows.
    - simpl. now rewrite app_nil_r.
    - intros i. unfold row_text. apply free_cat. intros x Hx. apply in_map_iff in Hx as (j & <- & _).
      apply (pixel_free (absT (f i j))); auto. apply pick_pixel.
    - repeat split; discriminate.
  Qed.
End Pattern.

(** Character [j] of the concatenation of one-character strings. *)
Lemma cat_one_len (l : list string) : (forall x, In x l -> String.length x = 1) -> String.length (cat l) = length l.
Proof. induction l; simpl; intros H; auto. rewrite len_app, IHl by auto. rewrite H by auto. reflexivity. Qed.
Lemma cat_one_nth (l : list string) : (forall x, In x l -> String.length x = 1) ->
  forall j x, nth_error l j = Some x -> substring j 1 (cat l) = x.
Proof.
  induction l as [|y l IH]; intros H j x Hj; [destruct j; discriminate|].
  assert (Hy : String.length y = 1) by (apply H; now left).
  destruct y as [|a [|b y]]; try discriminate. cbn [cat fold_right append].
  destruct j as [|j]; simpl in Hj.
  - injection Hj as <-. cbn [substring]. generalize (fold_right append "" l); intros z; now destruct z.
  - cbn [substring]. apply IH; auto. intros; apply H; now right.
Qed.

(** ** Printed matrices *)
Lemma upd_loop (g : nat -> nat -> nat) n : forall a (w : list nat), a + n <= length w ->
  exists w', foldM (fun k w => match nth_error w k with None => UB OOBRead | Some x => Ok (upd w k (g k x)) end) (seq a n) w = Ok w' /\
    length w' = length w /\
    forall j, nth_error w' j = if (a <=? j)%nat && (j <? a + n)%nat then option_map (g j) (nth_error w j) else nth_error w j.
Proof.
  induction n as [|n IH]; intros a w H.
  - exists w. repeat split; auto. intros j. destruct (Nat.leb_spec a j), (Nat.ltb_spec j (a + 0)); simpl; auto; lia.
  - cbn [seq foldM]. destruct (nth_error w a) as [x|] eqn:E.
    2:{ apply nth_error_None in E. lia. }
    cbn [bind]. destruct (IH (S a) (upd w a (g a x))) as (w' & E1 & L & Hj); [rewrite upd_length; lia|].
    exists w'. rewrite E1, L, upd_length. repeat split; auto. intros j. rewrite Hj.
    destruct (Nat.eq_dec j a) as [->|Hne].
    + rewrite nth_error_upd_eq by lia. rewrite E.
      destruct (Nat.leb_spec (S a) a), (Nat.leb_spec a a), (Nat.ltb_spec a (a + S n)); simpl; auto; lia.
    + rewrite nth_error_upd_ne by auto.
      destruct (Nat.leb_spec (S a) j), (Nat.leb_spec a j), (Nat.ltb_spec j (S a + n)), (Nat.ltb_spec j (a + S n)); simpl; auto; lia.
Qed.

Definition wmax (len : nat -> nat -> nat) (r j : nat) : nat := list_max (map (fun i => len i j) (seq 0 r)).
Lemma wmax_S len r j : wmax len (S r) j = Nat.max (wmax len r j) (len r j).
Proof. unfold wmax. rewrite seq_S, map_app, list_max_app. simpl. lia. Qed.
Lemma wmax_ge len r j i : i < r -> len i j <= wmax len r j.
Proof.
  intros H. unfold wmax. pose proof (proj1 (list_max_le (map (fun i => len i j) (seq 0 r)) _) (le_n _)) as G.
  rewrite Forall_forall in G. apply G. apply in_map_iff. exists i; split; auto. apply in_seq; lia.
Qed.
Lemma wmax_hit len r j : 0 < r -> exists i, i < r /\ wmax len r j = len i j.
Proof.
  induction r as [|r IH]; intros H; [lia|]. rewrite wmax_S.
  destruct r as [|r].
  - exists 0. split; auto.
  - destruct IH as (i & Hi & E); [lia|]. destruct (Nat.max_spec (wmax len (S r) j) (len (S r) j)) as [[_ ->]|[_ ->]].
    + exists (S r); auto.
    + exists i; auto.
Qed.

Section Print.
  Context {T : Type} (show : T -> string * string).
  Definition shown (v : T) : string := fst (show v) ++ snd (show v).

  Lemma widths_spec (d : dense T) r c f : view d r c f -> sh_ok (d_sh d) (length (d_buf d)) ->
    forM (d_rows d) (fun i w =>
      do ads <- cur_addrs (d_sh d) DRow DCol i;
      foldM (fun '(k, a) w =>
        do v <- rd (d_buf d) a;
        match nth_error w k with
        | None => UB OOBRead
        | Some x => Ok (upd w k (Nat.max x (String.length (fst (show v) ++ snd (show v)))))
        end) (enum ads) w) (repeat 0 (d_cols d)) =
    Ok (map (wmax (fun i j => String.length (shown (f i j))) r) (seq 0 c)).
  Proof.
    intros Hv (Hld & _ & _). pose proof Hv as (Hr & Hc & _).
    unfold forM. rewrite Hr, Hc.
    assert (G : forall n, n <= r ->
      foldM (fun i w =>
        do ads <- cur_addrs (d_sh d) DRow DCol i;
        foldM (fun '(k, a) w =>
          do v <- rd (d_buf d) a;
          match nth_error w k with
          | None => UB OOBRead
          | Some x => Ok (upd w k (Nat.max x (String.length (fst (show v) ++ snd (show v)))))
          end) (enum ads) w) (seq 0 n) (repeat 0 c) =
      Ok (map (wmax (fun i j => String.length (shown (f i j))) n) (seq 0 c))).
    2:{ now apply G. }
    induction n as [|n IH]; intros Hn.
    - simpl. f_equal. apply nth_error_ext. intros k. rewrite nth_error_map_eq, nth_error_seq.
      destruct (Nat.ltb_spec k c); [now rewrite nth_error_repeat|now rewrite nth_error_repeat_None].
    - rewrite seq_S, foldM_app, IH by lia. cbn [bind foldM Nat.add].
      rewrite cur_rc by (unfold d_rows in Hr; auto; lia). cbn [bind]. rewrite enum_map_seq, foldM_map.
      unfold d_cols in Hc. rewrite Hc.
      rewrite (foldM_ext _ (fun k w => match nth_error w k with None => UB OOBRead
        | Some x => Ok (upd w k ((fun k x => Nat.max x (String.length (shown (f n k)))) k x)) end)).
      2:{ intros k w Hk. apply in_seq in Hk. pose proof (view_cell d r c f n k Hv ltac:(lia) ltac:(lia)) as E.
          apply rd_ok in E. rewrite E. reflexivity. }
      destruct (upd_loop (fun k x => Nat.max x (String.length (shown (f n k)))) c 0
                  (map (wmax (fun i j => String.length (shown (f i j))) n) (seq 0 c))) as (w' & E & L & Hj).
      { rewrite map_length, seq_length. lia. }
      rewrite E. cbn [bind]. f_equal. apply nth_error_ext. intros k. rewrite Hj, !nth_error_map_eq, !nth_error_seq.
      destruct (Nat.ltb_spec k c); cbn [option_map].
      + destruct (Nat.leb_spec 0 k), (Nat.ltb_spec k (0 + c)); try lia. cbn [andb Nat.add]. now rewrite wmax_S.
      + destruct ((0 <=? k)%nat && (k <? 0 + c)%nat); reflexivity.
  Qed.

  Definition line (f : nat -> nat -> T) (r c i : nat) : string :=
    cat (map (fun j => setw (S (wmax (fun i j => String.length (shown (f i j))) r j)) (fst (show (f i j))) ++ snd (show (f i j)))
             (seq 0 c)).

  Lemma print_spec name full (d : dense T) r c f : view d r c f -> sh_ok (d_sh d) (length (d_buf d)) -> r <= 100 -> c <= 100 ->
    print_dense show name full d =
    Ok ((if full then name ++ nl ++ "Dimension = " ++ num r ++ " x " ++ num c ++ nl else "") ++ nl ++
        cat (map (fun i => line f r c i ++ nl) (seq 0 r)) ++ nl).
  Proof.
    intros Hv Hok Hr100 Hc100. pose proof Hv as (Hr & Hc & _). unfold print_dense.
    rewrite (widths_spec d r c f Hv Hok). rewrite Hr, Hc.
    destruct (Nat.ltb_spec 100 r), (Nat.ltb_spec 100 c); try lia. cbn [orb bind]. cbn zeta.
    destruct Hok as (Hld & _ & _). unfold forM.
    erewrite (foldM_text _ (fun i => line f r c i ++ nl)).
    - cbn [bind]. f_equal. now rewrite !app_s_assoc.
    - intros i o Hi. apply in_seq in Hi.
      rewrite cur_rc by (unfold d_rows in Hr; auto; lia). cbn [bind]. rewrite enum_map_seq, foldM_map.
      unfold d_cols in Hc. rewrite Hc. unfold line.
      erewrite foldM_text.
      + cbn [bind]. now rewrite app_s_assoc.
      + intros j o' Hj. apply in_seq in Hj. pose proof (view_cell d r c f i j Hv ltac:(lia) ltac:(lia)) as E.
        apply rd_ok in E. rewrite E. cbn [bind]. rewrite !nth_error_map_eq, nth_error_seq.
        destruct (Nat.ltb_spec j c); [|lia]. reflexivity.
  Qed.
End Print.

(** Lines and words. *)
Lemma lf_in s r : forall t, free_of "010" s -> lines_from t (s ++ r) = lines_from (t ++ s) r.
Proof.
  induction s as [|a s IH]; intros t H; [now rewrite app_s_nil|]. destruct H as [H1 H2]. simpl.
  destruct (Ascii.eqb_spec a "010"); [contradiction|]. rewrite IH by auto. now rewrite app_s_assoc.
Qed.
Lemma lf_line s r : free_of "010" s -> lines_from "" (s ++ nl ++ r) = s :: lines_from "" r.
Proof. intros H. rewrite lf_in by auto. reflexivity. Qed.
Lemma lf_lines (g : nat -> string) R l : (forall i, In i l -> free_of "010" (g i)) ->
  lines_from "" (cat (map (fun i => g i ++ nl) l) ++ R) = (map g l ++ lines_from "" R)%list.
Proof.
  induction l as [|i l IH]; intros H; auto. cbn [map cat fold_right List.app].
  rewrite !app_s_assoc, lf_line by (apply H; now left). f_equal. apply IH. intros; apply H; now right.
Qed.
Lemma blanks_free n : free_of "010" (blanks n).
Proof. induction n; simpl; auto. split; auto. discriminate. Qed.
Lemma blanks_len n : String.length (blanks n) = n.
Proof. induction n; simpl; auto. Qed.
Lemma wf_blanks n r : words_from "" (blanks n ++ r) = words_from "" r.
Proof. induction n; simpl; auto. Qed.
Lemma wf_in s r : forall t, free_of "032" s -> words_from t (s ++ r) = words_from (t ++ s) r.
Proof.
  induction s as [|a s IH]; intros t H; [now rewrite app_s_nil|]. destruct H as [H1 H2]. cbn [append words_from].
  destruct (Ascii.eqb_spec a "032"); [contradiction|]. rewrite IH by auto. now rewrite app_s_assoc.
Qed.
Lemma wf_word s r : s <> "" -> free_of "032" s -> (r = "" \/ exists r', r = String " "%char r') ->
  words_from "" (s ++ r) = s :: words_from "" r.
Proof.
  intros H1 H2 H3. rewrite wf_in by auto. destruct H3 as [->|(r' & ->)]; simpl; destruct s; congruence.
Qed.
Lemma wf_fields (g : nat -> string) (b : nat -> nat) l : (forall j, In j l -> word (g j) /\ 0 < b j) ->
  words_from "" (cat (map (fun j => blanks (b j) ++ g j) l)) = map g l.
Proof.
  induction l as [|j l IH]; intros H; auto. cbn [map cat fold_right].
  destruct (H j (or_introl eq_refl)) as [(W1 & W2 & W3) Hb]. rewrite app_s_assoc, wf_blanks, wf_word; auto.
  - f_equal. apply IH. intros; apply H; now right.
  - destruct l as [|j' l]; [now left|right]. cbn [map fold_right].
    destruct (H j' (or_intror (or_introl eq_refl))) as [_ Hb'].
    destruct (b j'); [lia|]. simpl. eauto.
Qed.

Lemma wf_text_list {A} (show : A -> string) R (l : list A) : (forall x, In x l -> word (show x)) ->
  words_from "" (print_list show l ++ R) = (map show l ++ words_from "" R)%list.
Proof.
  unfold print_list. induction l as [|x l IH]; intros H; auto. cbn [map cat fold_right List.app].
  destruct (H x (or_introl eq_refl)) as (W1 & W2 & W3).
  rewrite !app_s_assoc. rewrite wf_word; auto.
  - f_equal. cbn [append words_from]. apply IH. intros; apply H; now right.
  - right. eexists. reflexivity.
Qed.
Lemma free_list {A} (show : A -> string) (l : list A) : (forall x, In x l -> word (show x)) -> free_of "010" (print_list show l).
Proof.
  intros H. apply free_cat. intros x Hx. apply in_map_iff in Hx as (y & <- & Hy). apply free_app. split.
  - now apply H.
  - repeat split; discriminate.
Qed.
Lemma num_word n : word (num n).
Proof.
  split; [|split; apply num_free; vm_compute; lia].
  unfold num, NilZero.string_of_uint. destruct (Nat.to_uint n); discriminate.
Qed.
Lemma rd_all {T} (l : list T) : mapM (fun i => rd (map Some l) i) (seq 0 (length (map Some l))) = Ok l.
Proof.
  assert (G : forall l1 l2 : list T, mapM (fun i => rd (map Some (l1 ++ l2)) i) (seq (length l1) (length l2)) = Ok l2).
  { intros l1 l2. revert l1. induction l2 as [|x l2 IH]; intros l1; auto. cbn [length seq mapM].
    assert (E : rd (map Some (l1 ++ x :: l2)) (length l1) = Ok x).
    { apply rd_ok. rewrite nth_error_map_eq, nth_error_app2, Nat.sub_diag by lia. reflexivity. }
    rewrite E. cbn [bind]. specialize (IH (l1 ++ [x])%list). rewrite <- app_assoc in IH. cbn [List.app] in IH.
    rewrite app_length in IH. cbn [length] in IH. rewrite Nat.add_1_r in IH. rewrite IH. reflexivity. }
  rewrite map_length. apply (G []).
Qed.
