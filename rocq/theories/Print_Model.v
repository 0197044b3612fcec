(** Printing matrices to a stream whose format was set, or left behind, by earlier
    output.  Source: include/BlasBooster/Core/MatrixIO.h 12-193.

    Text_Model.v gives the text of one matrix on a stream in its default state; here
    a stream carries its format from one insertion to the next.

    Simplifications: write errors are left out; the adjustment is left or right
    ([internal] is left out); [style] stands for the remaining flags and the locale
    (showpos, uppercase, base, grouping); what an element or a number looks like
    under a style, notation and precision is given by [rendF], [rendD], [rendI];
    a matrix is read before its text is written. *)
From Coq Require Import String Ascii.
From Verif Require Import Base Dense_Model Sparse_Model Dyn_Model Stream_Model Text_Model.
Local Open Scope string_scope.
Local Open Scope list_scope.

Section Print.
Context {F D S : Type} (style0 : S).
Context (rendF : S -> notation -> Z -> F -> string) (rendD : S -> notation -> Z -> D -> string) (rendI : S -> nat -> string).

(** The format state; [f_full] is the stream's entry 12-26 ([iword] = 1). *)
Record fmt := mkFmt { f_not : notation; f_prec : Z; f_width : nat; f_left : bool; f_fill : ascii; f_style : S; f_full : bool }.
Definition fmt0 : fmt := mkFmt General 6 0 false " "%char style0 false.

(** Formatted output of a text: filled up to the width, which is then reset. *)
Fixpoint filled (c : ascii) (n : nat) : string := match n with 0 => "" | Datatypes.S k => String c (filled c k) end.
Definition pad_to (s : fmt) (t : string) : string :=
  let b := filled (f_fill s) (f_width s - String.length t) in if f_left s then (t ++ b)%string else (b ++ t)%string.

(** What a matrix does to the stream, one insertion at a time. *)
Inductive prim :=
| PText (t : string)       (* formatted output of a text *)
| PInt (n : nat)           (* of a size *)
| PF (x : F) | PD (x : D)  (* of an element *)
| PNl                      (* std::endl: a character, unformatted *)
| PSci                     (* std::scientific << std::setprecision(10) *)
| PWidth (w : nat).        (* std::setw *)

Definition out_text (s : fmt) (t : string) : fmt * string :=
  (mkFmt (f_not s) (f_prec s) 0 (f_left s) (f_fill s) (f_style s) (f_full s), pad_to s t).
Definition run_prim (s : fmt) (p : prim) : fmt * string :=
  match p with
  | PText t => out_text s t
  | PInt n => out_text s (rendI (f_style s) n)
  | PF x => out_text s (rendF (f_style s) (f_not s) (f_prec s) x)
  | PD x => out_text s (rendD (f_style s) (f_not s) (f_prec s) x)
  | PNl => (s, nl)
  | PSci => (mkFmt Scientific 10 (f_width s) (f_left s) (f_fill s) (f_style s) (f_full s), "")
  | PWidth w => (mkFmt (f_not s) (f_prec s) w (f_left s) (f_fill s) (f_style s) (f_full s), "")
  end.
Fixpoint run_prims (s : fmt) (l : list prim) : fmt * string :=
  match l with
  | [] => (s, "")
  | p :: l => let (s1, t1) := run_prim s p in let (s2, t2) := run_prims s1 l in (s2, (t1 ++ t2)%string)
  end.

(** 34-93.  The widths are measured on a new std::stringstream with the same two
    manipulators (67-69). *)
Definition dense_prims {T} (measure : T -> string) (elem : T -> prim) (name : string) (full : bool) (d : dense T) : res (list prim) :=
  if ((100 <? d_rows d) || (100 <? d_cols d))%nat then Ok [PText "Matrix too large for printing."; PNl]
  else
    let head := if full then [PText name; PNl; PText "Dimension = "; PInt (d_rows d); PText " x "; PInt (d_cols d); PNl] else [] in
    do width <- forM (d_rows d) (fun i w =>
      do ads <- cur_addrs (d_sh d) DRow DCol i;
      foldM (fun '(k, a) w =>
        do v <- rd (d_buf d) a;
        match nth_error w k with
        | None => UB OOBRead
        | Some x => Ok (upd w k (Nat.max x (String.length (measure v))))
        end) (enum ads) w) (repeat 0 (d_cols d));
    let width := map Datatypes.S width in
    do body <- forM (d_rows d) (fun i out =>
      do ads <- cur_addrs (d_sh d) DRow DCol i;
      do out <- foldM (fun '(k, a) out =>
        do v <- rd (d_buf d) a;
        match nth_error width k with
        | None => UB OOBRead
        | Some x => Ok (out ++ [PWidth x; elem v])
        end) (enum ads) out;
      Ok (out ++ [PNl])) [];
    Ok (head ++ [PSci; PNl] ++ body ++ [PNl]).

(** 95-133. *)
Definition sparse_prims {T} (elem : T -> prim) (name : string) (s : sparse T) : res (list prim) :=
  if (100 <? s_full s)%nat then Ok [PText "SparseMatrix (Size = "; PInt (s_full s); PText ") too large for printing."; PNl]
  else
    do vs <- mapM (fun i => rd (s_val s) i) (seq 0 (length (s_val s)));
    do ks <- mapM (fun i => rd (s_key s) i) (seq 0 (length (s_key s)));
    do os <- mapM (fun i => rd (s_off s) i) (seq 0 (length (s_off s)));
    Ok ([PText name; PNl; PText "Size = "; PInt (s_full s); PNl;
         PText "Dimension = "; PInt (s_rows s); PText " x "; PInt (s_cols s); PNl; PText "Value array = "] ++
        flat_map (fun v => [elem v; PText " "]) vs ++ [PNl; PText "Key array = "] ++
        flat_map (fun n => [PInt n; PText " "]) ks ++ [PNl; PText "Offset array = "] ++
        flat_map (fun n => [PInt n; PText " "]) os).

(** 135-144. *)
Definition zero_prims (full r c : nat) : list prim :=
  [PText "Matrix<Zero>"; PNl; PText "Size = "; PInt full; PNl; PText "Dimension = "; PInt r; PText " x "; PInt c; PNl].

(** 146-151. *)
Definition leaf_prims (full : bool) (l : leaf F D) : res (list prim) :=
  match l with
  | LZ z => Ok (zero_prims (z_full z) (z_rows z) (z_cols z))
  | LSf s => sparse_prims PF "Matrix<Sparse,float>" s
  | LSd s => sparse_prims PD "Matrix<Sparse,double>" s
  | LDf d => dense_prims (rendF style0 Scientific 10) PF "Matrix<Dense,float>" full d
  | LDd d => dense_prims (rendD style0 Scientific 10) PD "Matrix<Dense,double>" full d
  end.
(** 153-157 and 167-193: both parts, one after the other. *)
Definition dyn_prims (full : bool) (d : dyn F D) : res (list prim) :=
  match d with
  | DL l => leaf_prims full l
  | DM _ _ m1 m2 => do a <- deref m1; do x <- leaf_prims full a; do b <- deref m2; do y <- leaf_prims full b; Ok (x ++ y)
  end.
Definition ptr_prims (exc dbg full : bool) (p : option (dyn F D)) : res (list prim) :=
  match p with
  | None => Ok [PText "No Matrix found."]
  | Some _ => exec_member exc dbg (dyn_prims full) p
  end.

(** A program writing to several streams. *)
Inductive m_item :=
| MNotation (n : notation) | MPrecision (p : Z) | MWidth (w : nat) | MLeft (b : bool) | MFill (c : ascii) | MStyle (s : S)
| MFull (b : bool)                 (* fullprint, shortprint: 15-26 *)
| MText (t : string) | MNumber (x : D)
| MLeaf (l : leaf F D)             (* a matrix of known type *)
| MDyn (p : option (dyn F D)).     (* a DynamicMatrix *)
Definition m_insert (exc dbg : bool) (s : fmt) (i : m_item) : res (fmt * string) :=
  match i with
  | MNotation n => Ok (mkFmt n (f_prec s) (f_width s) (f_left s) (f_fill s) (f_style s) (f_full s), "")
  | MPrecision p => Ok (mkFmt (f_not s) p (f_width s) (f_left s) (f_fill s) (f_style s) (f_full s), "")
  | MWidth w => Ok (mkFmt (f_not s) (f_prec s) w (f_left s) (f_fill s) (f_style s) (f_full s), "")
  | MLeft b => Ok (mkFmt (f_not s) (f_prec s) (f_width s) b (f_fill s) (f_style s) (f_full s), "")
  | MFill c => Ok (mkFmt (f_not s) (f_prec s) (f_width s) (f_left s) c (f_style s) (f_full s), "")
  | MStyle y => Ok (mkFmt (f_not s) (f_prec s) (f_width s) (f_left s) (f_fill s) y (f_full s), "")
  | MFull b => Ok (mkFmt (f_not s) (f_prec s) (f_width s) (f_left s) (f_fill s) (f_style s) b, "")
  | MText t => Ok (out_text s t)
  | MNumber x => Ok (run_prim s (PD x))
  | MLeaf l => do ps <- leaf_prims (f_full s) l; Ok (run_prims s ps)
  | MDyn p => do ps <- ptr_prims exc dbg (f_full s) p; Ok (run_prims s ps)
  end.
Fixpoint write_to (exc dbg : bool) (st : nat -> fmt) (l : list (nat * m_item)) : res ((nat -> fmt) * list string) :=
  match l with
  | [] => Ok (st, [])
  | (k, i) :: l =>
      do r <- m_insert exc dbg (st k) i;
      do q <- write_to exc dbg (fun j => if Nat.eqb j k then fst r else st j) l;
      Ok (fst q, snd r :: snd q)
  end.
End Print.
