(** C45, C58: pictures and printed matrices.  Vocabulary: Text_Spec.v. *)
From Coq Require Import String Ascii.
From Verif Require Import Base BaseLemmas Dense_Model Dense_Spec Dense_Proofs Dense2_Proofs Sparse_Model Sparse_Spec Dyn_Model
  Dyn2_Proofs Text_Model Text_Spec Text_Proofs Dense_Props Sparse_Props.
Local Open Scope string_scope.

(** ** C45 *)
(** The strings of the written file are the header, one line per colour, the
    background, and one string per matrix row, made of the pixel texts in column
    order. *)
Theorem C45_picture :
  forall (T D : Type) (absT : T -> T) (ge : T -> D -> bool) (s : psettings D) (d : dense T) r c f,
    legal d -> view d r c f -> clean s ->
    exists t rows, pattern_file absT ge true s d = Ok (Some t) /\
      strings_of t = (header s r c :: map (fun c => color_text (c_index c) (c_color c)) (ps_palette s) ++
                      color_text (ps_bgi s) (ps_bgc s) :: rows)%list /\
      length rows = r /\
      forall i, i < r -> exists px, nth_error rows i = Some (cat (map px (seq 0 c))) /\
        forall j, j < c -> is_pixel ge s (absT (f i j)) (px j).
Proof.
  intros T D absT ge s d r c f L V C.
  destruct (pattern_spec absT ge s d r c f V (legal_ok d L) C) as (t & E & S).
  exists t, (map (row_text absT ge s f c) (seq 0 r)). repeat split; auto.
  - unfold pattern_file. now rewrite E.
  - now rewrite map_length, seq_length.
  - intros i Hi. exists (fun j => pix absT ge s (f i j)). split.
    + rewrite nth_error_map_eq, nth_error_seq. now destruct (Nat.ltb_spec i r); [|lia].
    + intros j Hj. apply pick_pixel.
Qed.
Print Assumptions C45_picture.

(** If all pixel texts have one character, character [j] of row [i] is the pixel
    of element (i, j) and every row is as wide as the header says. *)
Theorem C45_one_character_per_element :
  forall (T D : Type) (absT : T -> T) (ge : T -> D -> bool) (s : psettings D) (d : dense T) r c f,
    legal d -> view d r c f -> clean s -> one_char s ->
    exists t rows, pattern_file absT ge true s d = Ok (Some t) /\
      strings_of t = (header s r c :: map (fun c => color_text (c_index c) (c_color c)) (ps_palette s) ++
                      color_text (ps_bgi s) (ps_bgc s) :: rows)%list /\
      length rows = r /\
      forall i, i < r -> exists row, nth_error rows i = Some row /\ String.length row = c /\
        forall j, j < c -> is_pixel ge s (absT (f i j)) (substring j 1 row).
Proof.
  intros T D absT ge s d r c f L V C O.
  destruct (C45_picture T D absT ge s d r c f L V C) as (t & rows & E & S & Lr & H).
  exists t, rows. repeat split; auto. intros i Hi. destruct (H i Hi) as (px & Ep & Hp).
  exists (cat (map px (seq 0 c))). split; [exact Ep|].
  assert (H1 : forall x, In x (map px (seq 0 c)) -> String.length x = 1).
  { intros x Hx. apply in_map_iff in Hx as (j & <- & Hj). apply in_seq in Hj.
    eapply pixel_len; eauto. apply Hp; lia. }
  split.
  - rewrite cat_one_len by auto. now rewrite map_length, seq_length.
  - intros j Hj. rewrite (cat_one_nth _ H1 j (px j)); auto.
    rewrite nth_error_map_eq, nth_error_seq. now destruct (Nat.ltb_spec j c); [|lia].
Qed.
Print Assumptions C45_one_character_per_element.

(** The pixel is determined by the value. *)
Theorem C45_pixel_unique :
  forall (T D : Type) (ge : T -> D -> bool) (s : psettings D) a p q, is_pixel ge s a p -> is_pixel ge s a q -> p = q.
Proof. intros T D ge s a p q. apply pixel_unique. Qed.
Print Assumptions C45_pixel_unique.

Definition demo_ps : psettings Z := mkPset [mkColor "#" "000000" 5%Z; mkColor "+" "808080" 3%Z] "." "ffffff".
Example C45_nonvacuous : legal demoC /\ view demoC 2 3 demoC_f /\ clean demo_ps /\ one_char demo_ps /\
  exists t, pattern_file Z.abs Z.geb true demo_ps demoC = Ok (Some t) /\
    strings_of t = ["3 2 3 1"; color_text "#" "000000"; color_text "+" "808080"; color_text "." "ffffff"; "..+"; "+##"].
Proof.
  destruct demoC_mat as [W V]. split; [now constructor|]. split; [exact V|]. split; [|split].
  - unfold clean, demo_ps. cbn. repeat split; try discriminate; destruct H as [<-|[<-|[]]]; cbn; repeat split; discriminate.
  - unfold one_char, demo_ps. cbn. split; auto. intros c [<-|[<-|[]]]; reflexivity.
  - eexists; split; vm_compute; reflexivity.
Qed.

(** With the default settings (no settings file) the pixel texts are empty: the
    header announces 3 x 2 pixels, the rows are empty. *)
Theorem C45_default_settings_refuted :
  exists t, pattern_file Z.abs Z.geb true ps_default demoC = Ok (Some t) /\
    strings_of t = ["3 2 1 1"; color_text "" ""; ""; ""].
Proof. eexists; split; vm_compute; reflexivity. Qed.
Print Assumptions C45_default_settings_refuted.

(** A file that cannot be opened is not reported: the call returns normally and
    nothing is written. *)
Theorem C45_unwritable_file_refuted : pattern_file Z.abs Z.geb false demo_ps demoC = Ok None.
Proof. vm_compute; reflexivity. Qed.
Print Assumptions C45_unwritable_file_refuted.

(** ** C58 *)
(** Reading the printed text line by line, word by word, gives back the texts of
    the elements row by row, between an empty first and an empty last line. *)
Theorem C58_printed_elements :
  forall (T : Type) (show : T -> string * string) name (d : dense T) r c f,
    legal d -> view d r c f -> r <= 100 -> c <= 100 ->
    (forall i j, i < r -> j < c -> word (fst (show (f i j)) ++ snd (show (f i j)))) ->
    exists t, print_dense show name false d = Ok t /\
      map words_of (lines_of t) =
      ([] :: map (fun i => map (fun j => (fst (show (f i j)) ++ snd (show (f i j)))%string) (seq 0 c)) (seq 0 r) ++ [[]])%list.
Proof.
  intros T show name d r c f L V Hr Hc W. eexists. split; [apply (print_spec show name false d r c f); auto; now apply legal_ok|].
  assert (E : forall i, i < r -> line show f r c i = cat (map (fun j =>
      blanks (S (wmax (fun i j => String.length (shown show (f i j))) r j) - String.length (fst (show (f i j)))) ++ shown show (f i j)) (seq 0 c))).
  { intros i Hi. unfold line. f_equal. apply map_ext. intros j. unfold setw, shown. now rewrite app_s_assoc. }
  unfold lines_of.
  match goal with |- context [lines_from "" ("" ++ nl ++ ?R)] =>
    change (lines_from "" ("" ++ nl ++ R)) with ("" :: lines_from "" R) end.
  rewrite (lf_lines (line show f r c)).
  - cbn [map]. f_equal. rewrite map_app, map_map. f_equal. apply map_ext_in. intros i Hi. apply in_seq in Hi.
    rewrite E by lia. unfold words_of. apply (wf_fields (fun j => shown show (f i j))). intros j Hj. apply in_seq in Hj. split.
    + apply W; lia.
    + pose proof (wmax_ge (fun i j => String.length (shown show (f i j))) r j i ltac:(lia)) as G. cbn beta in G.
      unfold shown in G at 1. rewrite len_app in G. lia.
  - intros i Hi. apply in_seq in Hi. rewrite E by lia. apply free_cat. intros x Hx. apply in_map_iff in Hx as (j & <- & Hj).
    apply in_seq in Hj. apply free_app. split; [apply blanks_free|]. apply W; lia.
Qed.
Print Assumptions C58_printed_elements.

(** Columns are aligned: every field of column [j] is the element's text padded
    on the left to the same width [w j], one more than the longest text of the
    column. *)
Theorem C58_columns_aligned :
  forall (T : Type) (show : T -> string) name (d : dense T) r c f,
    legal d -> view d r c f -> r <= 100 -> c <= 100 ->
    exists (w : nat -> nat) (field : nat -> nat -> string),
      print_dense (fun v => (show v, "")) name false d =
        Ok (nl ++ cat (map (fun i => cat (map (field i) (seq 0 c)) ++ nl) (seq 0 r)) ++ nl) /\
      (forall i j, i < r -> j < c -> String.length (field i j) = w j /\ exists k, 0 < k /\ field i j = blanks k ++ show (f i j)) /\
      (forall j, j < c -> 0 < r -> exists i, i < r /\ w j = String.length (show (f i j)) + 1).
Proof.
  intros T show name d r c f L V Hr Hc.
  set (len := fun i j => String.length (shown (fun v => (show v, "")) (f i j))).
  exists (fun j => S (wmax len r j)), (fun i j => blanks (S (wmax len r j) - String.length (show (f i j))) ++ show (f i j)).
  assert (Hlen : forall i j, len i j = String.length (show (f i j))).
  { intros i j. unfold len, shown. cbn. now rewrite app_s_nil. }
  split; [|split].
  - rewrite (print_spec (fun v => (show v, "")) name false d r c f V (legal_ok d L) Hr Hc). f_equal. cbn [append]. f_equal. f_equal.
    f_equal. apply map_ext. intros i. f_equal. unfold line. f_equal. apply map_ext. intros j. cbn [fst snd]. rewrite app_s_nil.
    reflexivity.
  - intros i j Hi Hj. pose proof (wmax_ge len r j i Hi) as G. rewrite Hlen in G. split.
    + rewrite len_app, blanks_len. lia.
    + eexists; split; [|reflexivity]. lia.
  - intros j Hj H0. destruct (wmax_hit len r j H0) as (i & Hi & E). exists i. split; auto. rewrite E, Hlen. lia.
Qed.
Print Assumptions C58_columns_aligned.

(** Full printing adds the name and the dimensions in front; a matrix with more
    than 100 rows or columns is not printed. *)
Theorem C58_full_and_large :
  forall (T : Type) (show : T -> string * string) name (d : dense T) r c f,
    legal d -> view d r c f -> free_of "010" name ->
    (r <= 100 -> c <= 100 -> exists t t', print_dense show name false d = Ok t /\ print_dense show name true d = Ok t' /\
       lines_of t' = name :: ("Dimension = " ++ num r ++ " x " ++ num c) :: lines_of t) /\
    (100 < r \/ 100 < c -> forall full, print_dense show name full d = Ok ("Matrix too large for printing." ++ nl)).
Proof.
  intros T show name d r c f L V N. split.
  - intros Hr Hc. do 2 eexists. split; [apply (print_spec show name false d r c f V (legal_ok d L) Hr Hc)|].
    split; [apply (print_spec show name true d r c f V (legal_ok d L) Hr Hc)|].
    unfold lines_of. rewrite !app_s_assoc. rewrite lf_line by auto. f_equal.
    match goal with |- lines_from "" ("Dimension = " ++ num r ++ " x " ++ num c ++ nl ++ ?R) = _ =>
      replace ("Dimension = " ++ num r ++ " x " ++ num c ++ nl ++ R) with
        (("Dimension = " ++ num r ++ " x " ++ num c) ++ nl ++ R) by now rewrite !app_s_assoc end.
    rewrite lf_line; [reflexivity|]. rewrite !free_app. repeat split; try discriminate; apply num_word.
  - intros H full. destruct V as (Hr & Hc & _). unfold print_dense. rewrite Hr, Hc.
    destruct (Nat.ltb_spec 100 r), (Nat.ltb_spec 100 c); try lia; reflexivity.
Qed.
Print Assumptions C58_full_and_large.

(** A sparse matrix all of whose cells are in use is printed as its three arrays. *)
Theorem C58_printed_sparse :
  forall (T : Type) (show : T -> string) name (s : sparse T) vs ks os,
    s_val s = map Some vs -> s_key s = map Some ks -> s_off s = map Some os -> s_full s <= 100 ->
    free_of "010" name -> (forall v, In v vs -> word (show v)) ->
    exists t, print_sparse show name s = Ok t /\
      exists l1 l2 l3 l4, lines_of t = [name; l1; l2; l3; l4; "Offset array = " ++ print_list num os] /\
        l1 = "Size = " ++ num (s_full s) /\ l2 = "Dimension = " ++ num (s_rows s) ++ " x " ++ num (s_cols s) /\
        words_of l3 = ("Value" :: "array" :: "=" :: map show vs)%list /\
        words_of l4 = ("Key" :: "array" :: "=" :: map num ks)%list /\
        words_of ("Offset array = " ++ print_list num os) = ("Offset" :: "array" :: "=" :: map num os)%list.
Proof.
  intros T show name s vs ks os Ev Ek Eo Hf N W. unfold print_sparse. rewrite Ev, Ek, Eo, !rd_all. cbn [bind].
  destruct (Nat.ltb_spec 100 (s_full s)); [lia|]. eexists; split; [reflexivity|].
  exists ("Size = " ++ num (s_full s)), ("Dimension = " ++ num (s_rows s) ++ " x " ++ num (s_cols s)),
    ("Value array = " ++ print_list show vs), ("Key array = " ++ print_list num ks).
  assert (NL : forall l : list nat, free_of "010" (print_list num l)) by (intros; apply free_list; intros; apply num_word).
  repeat split; auto.
  - unfold lines_of. rewrite lf_line by auto. f_equal.
    match goal with |- lines_from "" (?a ++ ?b ++ nl ++ ?R) = _ => replace (a ++ b ++ nl ++ R) with ((a ++ b) ++ nl ++ R) by now rewrite !app_s_assoc end.
    rewrite lf_line by (rewrite !free_app; repeat split; try discriminate; apply num_word). f_equal.
    match goal with |- lines_from "" (?a ++ ?b ++ ?c ++ ?e ++ nl ++ ?R) = _ =>
      replace (a ++ b ++ c ++ e ++ nl ++ R) with ((a ++ b ++ c ++ e) ++ nl ++ R) by now rewrite !app_s_assoc end.
    rewrite lf_line by (rewrite !free_app; repeat split; try discriminate; apply num_word). f_equal.
    match goal with |- lines_from "" (?a ++ ?b ++ nl ++ ?R) = _ => replace (a ++ b ++ nl ++ R) with ((a ++ b) ++ nl ++ R) by now rewrite !app_s_assoc end.
    rewrite lf_line by (rewrite !free_app; repeat split; try discriminate; now apply free_list). f_equal.
    match goal with |- lines_from "" (?a ++ ?b ++ nl ++ ?R) = _ => replace (a ++ b ++ nl ++ R) with ((a ++ b) ++ nl ++ R) by now rewrite !app_s_assoc end.
    rewrite lf_line by (rewrite !free_app; repeat split; try discriminate; auto). f_equal.
    rewrite <- (app_s_nil ("Offset array = " ++ print_list num os)) at 1.
    rewrite lf_in by (rewrite !free_app; repeat split; try discriminate; auto). reflexivity.
  - unfold words_of. cbn [append words_from Ascii.eqb Bool.eqb]. f_equal. f_equal. f_equal.
    rewrite <- (app_s_nil (print_list show vs)), wf_text_list by auto. now rewrite app_nil_r.
  - unfold words_of. cbn [append words_from Ascii.eqb Bool.eqb]. f_equal. f_equal. f_equal.
    rewrite <- (app_s_nil (print_list num ks)), wf_text_list by (intros; apply num_word). now rewrite app_nil_r.
  - unfold words_of. cbn [append words_from Ascii.eqb Bool.eqb]. f_equal. f_equal. f_equal.
    rewrite <- (app_s_nil (print_list num os)), wf_text_list by (intros; apply num_word). now rewrite app_nil_r.
Qed.
Print Assumptions C58_printed_sparse.

(** Through a run-time typed pointer the matrix it points to is printed; two parts
    one after the other; the null pointer has a text of its own. *)
Theorem C58_dynamic :
  forall (F D : Type) (showF : F -> string) (showD : D -> string) full exc dbg,
    print_ptr showF showD full exc dbg None = Ok "No Matrix found." /\
    (forall l, In (TL (leaf_ty l)) type_list -> print_ptr showF showD full exc dbg (Some (DL l)) = print_leaf showF showD full l) /\
    (forall t1 t2 l1 l2 x y, In (TM t1 t2) type_list -> print_leaf showF showD full l1 = Ok x -> print_leaf showF showD full l2 = Ok y ->
       print_ptr showF showD full exc dbg (Some (DM t1 t2 (Some l1) (Some l2))) = Ok (x ++ y)).
Proof.
  intros. split; [reflexivity|]. split.
  - intros l H. cbn [print_ptr]. now rewrite exec_member_ok.
  - intros t1 t2 l1 l2 x y H Hx Hy. cbn [print_ptr]. rewrite exec_member_ok by auto. cbn [print_dyn deref bind].
    rewrite Hx. cbn [bind]. now rewrite Hy.
Qed.
Print Assumptions C58_dynamic.

Definition show_Z (z : Z) : string := match z with Zneg _ => "-" ++ num (Z.to_nat (- z)) | _ => num (Z.to_nat z) end.
Example C58_nonvacuous : legal demoC /\ view demoC 2 3 demoC_f /\
  (forall i j, i < 2 -> j < 3 -> word (show_Z (demoC_f i j) ++ "")) /\
  (exists t, print_dense (fun z => (show_Z z, "")) "Matrix<Dense,int>" false demoC = Ok t /\ lines_of t = [""; " 1 2 3"; " 4 5 6"; ""]) /\
  (exists vs ks os, s_val demoS = map Some vs /\ s_key demoS = map Some ks /\ s_off demoS = map Some os /\ length vs = 3).
Proof.
  destruct demoC_mat as [W V]. split; [now constructor|]. split; [exact V|]. split; [|split].
  - intros [|[|i]] [|[|[|j]]] Hi Hj; try lia; split; try discriminate; split; cbn; repeat split; discriminate.
  - eexists; split; vm_compute; reflexivity.
  - exists [1; 3; 2]%Z, [0; 1; 0], [0; 1; 2; 3]. repeat split.
Qed.

(** std::setw applies to the first insertion only: a matrix of pairs of sizes is
    printed with columns that are not aligned. *)
Theorem C58_pairs_refuted :
  exists (d : dense (nat * nat)) t, d_init_list ColMajor [[(1, 1); (1, 1)]; [(1, 100); (1, 1)]] = Ok d /\
    print_dense show_dim "" false d = Ok t /\ lines_of t = [""; "     1x1   1x1"; "     1x100   1x1"; ""].
Proof. do 2 eexists. split; [vm_compute; reflexivity|]. split; vm_compute; reflexivity. Qed.
Print Assumptions C58_pairs_refuted.
