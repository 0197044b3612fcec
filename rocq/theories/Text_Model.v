(** Model of the text output: pictures of matrices and printed matrices.
    Sources: include/BlasBooster/Core/PatternGenerator.h 14-107,
    MatrixIO.h 12-195, GenerateTypeMatrix.h 69-72, DenseMatrix.h 299,
    SparseMatrix.h 137, ZeroMatrix.h 76, Utilities/TypeName.h.

    Simplifications:
    - an output stream is the string written to it; std::endl writes a newline;
      write errors are left out; the stream's other formatting flags are the
      default ones (right alignment, fill character blank);
    - the text of one element is given by a function [show] (scientific format
      with 10 digits for floating point types); [show v] is a pair, the text of
      the first insertion, to which std::setw applies, and the text of the
      insertions that follow (GenerateTypeMatrix.h 69-72 for a pair of sizes). *)
From Coq Require Import String Ascii DecimalString.
From Verif Require Import Base Dense_Model Sparse_Model Dyn_Model.
Local Open Scope string_scope.

Definition nl : string := String "010"%char EmptyString.
Definition tab : string := String "009"%char EmptyString.
Definition dq : string := String "034"%char EmptyString.
Definition cat (l : list string) : string := fold_right append "" l.
(** Decimal text of an unsigned number. *)
Definition num (n : nat) : string := NilZero.string_of_uint (Nat.to_uint n).

(** ** PatternGenerator.h *)
(** 18-28. *)
Record color (D : Type) := mkColor { c_index : string; c_color : string; c_thr : D }.
Arguments mkColor {D}. Arguments c_index {D}. Arguments c_color {D}. Arguments c_thr {D}.
Record psettings (D : Type) := mkPset { ps_palette : list (color D); ps_bgi : string; ps_bgc : string }.
Arguments mkPset {D}. Arguments ps_palette {D}. Arguments ps_bgi {D}. Arguments ps_bgc {D}.
(** 24-28: the defaults. *)
Definition ps_default {D} : psettings D := mkPset [] "" "".

Section Pattern.
  Context {T D : Type}.
  Variable absT : T -> T.              (* std::abs *)
  Variable ge : T -> D -> bool.        (* absValue >= color.threshold *)

  (** 85-95. *)
  Fixpoint pick (l : list (color D)) (a : T) (bg : string) : string :=
    match l with
    | [] => bg
    | c :: r => if ge a (c_thr c) then c_index c else pick r a bg
    end.

  Definition color_line (idx col : string) : string := dq ++ idx ++ tab ++ "c #" ++ col ++ dq ++ "," ++ nl.

  (** 43-105.  [rowLast] is the last row; cursors compare their keys. *)
  Definition pattern (s : psettings D) (d : dense T) : res string :=
    let head :=
      "/* XPM */" ++ nl ++ "static char * matrix_xpm[] = {" ++ nl ++ dq ++
      num (d_cols d) ++ " " ++ num (d_rows d) ++ " " ++ num (length (ps_palette s) + 1) ++ " 1" ++ dq ++ "," ++ nl ++
      cat (map (fun c => color_line (c_index c) (c_color c)) (ps_palette s)) ++
      color_line (ps_bgi s) (ps_bgc s) ++
      "/* Data section */" ++ nl in
    do out <- forM (d_rows d) (fun i out =>
      do ads <- cur_addrs (d_sh d) DRow DCol i;
      do out <- foldM (fun a out => do v <- rd (d_buf d) a; Ok (out ++ pick (ps_palette s) (absT v) (ps_bgi s)))
                      ads (out ++ dq);
      Ok (if (S i =? d_rows d)%nat then out ++ dq else out ++ dq ++ "," ++ nl)) head;
    Ok (out ++ "};" ++ nl).

  (** The file: 46 opens it, nothing checks that this succeeded; if it did not,
      nothing is written. *)
  Definition pattern_file (can_open : bool) (s : psettings D) (d : dense T) : res (option string) :=
    do t <- pattern s d; Ok (if can_open then Some t else None).
End Pattern.

(** ** MatrixIO.h *)
Fixpoint blanks (n : nat) : string := match n with 0 => "" | S k => String " "%char (blanks k) end.
(** [os << std::setw(w) << text]. *)
Definition setw (w : nat) (t : string) : string := blanks (w - String.length t) ++ t.

(** 34-93, dense.  [full] is [fullprint], [name] is A.name(). *)
Definition print_dense {T} (show : T -> string * string) (name : string) (full : bool) (d : dense T) : res string :=
  if ((100 <? d_rows d) || (100 <? d_cols d))%nat then Ok ("Matrix too large for printing." ++ nl)
  else
    let head := if full then name ++ nl ++ "Dimension = " ++ num (d_rows d) ++ " x " ++ num (d_cols d) ++ nl else "" in
    do width <- forM (d_rows d) (fun i w =>
      do ads <- cur_addrs (d_sh d) DRow DCol i;
      foldM (fun '(k, a) w =>
        do v <- rd (d_buf d) a;
        match nth_error w k with
        | None => UB OOBRead
        | Some x => Ok (upd w k (Nat.max x (String.length (fst (show v) ++ snd (show v)))))
        end) (enum ads) w) (repeat 0 (d_cols d));
    let width := map S width in
    do out <- forM (d_rows d) (fun i out =>
      do ads <- cur_addrs (d_sh d) DRow DCol i;
      do out <- foldM (fun '(k, a) out =>
        do v <- rd (d_buf d) a;
        match nth_error width k with
        | None => UB OOBRead
        | Some x => Ok (out ++ setw x (fst (show v)) ++ snd (show v))
        end) (enum ads) out;
      Ok (out ++ nl)) (head ++ nl);
    Ok (out ++ nl).

(** The elements of an array, each followed by a blank (110-115). *)
Definition print_list {A} (show : A -> string) (l : list A) : string := cat (map (fun x => show x ++ " ") l).

(** 95-133, sparse.  The arrays are printed from begin to end. *)
Definition print_sparse {T} (show : T -> string) (name : string) (s : sparse T) : res string :=
  if (100 <? s_full s)%nat then Ok ("SparseMatrix (Size = " ++ num (s_full s) ++ ") too large for printing." ++ nl)
  else
    do vs <- mapM (fun i => rd (s_val s) i) (seq 0 (length (s_val s)));
    do ks <- mapM (fun i => rd (s_key s) i) (seq 0 (length (s_key s)));
    do os <- mapM (fun i => rd (s_off s) i) (seq 0 (length (s_off s)));
    Ok (name ++ nl ++ "Size = " ++ num (s_full s) ++ nl ++
        "Dimension = " ++ num (s_rows s) ++ " x " ++ num (s_cols s) ++ nl ++
        "Value array = " ++ print_list show vs ++ nl ++
        "Key array = " ++ print_list num ks ++ nl ++
        "Offset array = " ++ print_list num os).

(** 135-144, zero. *)
Definition print_zero (full r c : nat) : string :=
  "Matrix<Zero>" ++ nl ++ "Size = " ++ num full ++ nl ++ "Dimension = " ++ num r ++ " x " ++ num c ++ nl.

Section PrintDyn.
  Context {F D : Type}.
  Variable showF : F -> string.
  Variable showD : D -> string.
  Variable full : bool.

  (** 146-158. *)
  Definition print_leaf (l : leaf F D) : res string :=
    match l with
    | LZ z => Ok (print_zero (z_full z) (z_rows z) (z_cols z))
    | LSf s => print_sparse showF "Matrix<Sparse,float>" s
    | LSd s => print_sparse showD "Matrix<Sparse,double>" s
    | LDf d => print_dense (fun v => (showF v, "")) "Matrix<Dense,float>" full d
    | LDd d => print_dense (fun v => (showD v, "")) "Matrix<Dense,double>" full d
    end.
  (** 153-157; an empty part is a null pointer. *)
  Definition print_dyn (d : dyn F D) : res string :=
    match d with
    | DL l => print_leaf l
    | DM _ _ m1 m2 =>
        do a <- deref m1; do x <- print_leaf a; do b <- deref m2; do y <- print_leaf b; Ok (x ++ y)
    end.
  (** 167-193. *)
  Definition print_ptr (exc dbg : bool) (p : option (dyn F D)) : res string :=
    match p with
    | None => Ok "No Matrix found."
    | Some _ => exec_member exc dbg print_dyn p
    end.
End PrintDyn.

(** GenerateTypeMatrix.h 69-72: text of a pair of sizes. *)
Definition show_dim (p : nat * nat) : string * string := (num (fst p), "x" ++ num (snd p)).
