(** How the written text is read back. *)
From Coq Require Import String Ascii.
From Verif Require Import Base Text_Model.
Local Open Scope string_scope.

(** The strings of a C source text: what stands between double quotes. *)
Fixpoint strings_from (inside : option string) (s : string) : list string :=
  match s with
  | EmptyString => []
  | String a r =>
      if Ascii.eqb a "034" then
        match inside with Some t => t :: strings_from None r | None => strings_from (Some "") r end
      else strings_from (option_map (fun t => t ++ String a "") inside) r
  end.
Definition strings_of (s : string) : list string := strings_from None s.

(** [s] does not contain the character [a]. *)
Fixpoint free_of (a : ascii) (s : string) : Prop :=
  match s with EmptyString => True | String b r => b <> a /\ free_of a r end.

(** The pixel text for a value of magnitude [a]: that of the first colour whose
    threshold is reached, the background's if there is none. *)
Definition is_pixel {T D} (ge : T -> D -> bool) (s : psettings D) (a : T) (p : string) : Prop :=
  (exists k c, nth_error (ps_palette s) k = Some c /\ ge a (c_thr c) = true /\ p = c_index c /\
     forall k' c', k' < k -> nth_error (ps_palette s) k' = Some c' -> ge a (c_thr c') = false) \/
  ((forall c, In c (ps_palette s) -> ge a (c_thr c) = false) /\ p = ps_bgi s).

(** No quotation mark in the texts given by the user. *)
Definition clean {D} (s : psettings D) : Prop :=
  free_of "034" (ps_bgi s) /\ free_of "034" (ps_bgc s) /\
  forall c, In c (ps_palette s) -> free_of "034" (c_index c) /\ free_of "034" (c_color c).

(** One character per pixel, as the header announces. *)
Definition one_char {D} (s : psettings D) : Prop :=
  String.length (ps_bgi s) = 1 /\ forall c, In c (ps_palette s) -> String.length (c_index c) = 1.

(** Lines of a text: each is ended by a newline; the rest after the last newline
    is dropped if empty. *)
Fixpoint lines_from (cur : string) (s : string) : list string :=
  match s with
  | EmptyString => match cur with EmptyString => [] | _ => [cur] end
  | String a r => if Ascii.eqb a "010" then cur :: lines_from "" r else lines_from (cur ++ String a "") r
  end.
Definition lines_of (s : string) : list string := lines_from "" s.

(** Words of a line: maximal pieces without blanks. *)
Fixpoint words_from (cur : string) (s : string) : list string :=
  let fin r := match cur with EmptyString => r | _ => cur :: r end in
  match s with
  | EmptyString => fin []
  | String a r => if Ascii.eqb a "032" then fin (words_from "" r) else words_from (cur ++ String a "") r
  end.
Definition words_of (s : string) : list string := words_from "" s.

(** A text an element may have: not empty, no blank, no newline. *)
Definition word (s : string) : Prop := s <> "" /\ free_of "032" s /\ free_of "010" s.

(** What the strings of a picture file must be: width, height, number of colours,
    characters per pixel; one line per colour. *)
Definition header {D} (s : psettings D) (r c : nat) : string :=
  num c ++ " " ++ num r ++ " " ++ num (length (ps_palette s) + 1) ++ " 1".
Definition color_text (i c : string) : string := i ++ tab ++ "c #" ++ c.
