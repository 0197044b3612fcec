(** Model of serialisation and of matrix files.  Sources:
    include/BlasBooster/Core/Storage.h 479-493, Dimension.h 119-127,
    DenseMatrix.h 309-316, 670-677, MatrixFileIO.h 14-54,
    src/MatrixFactory/MatrixFileImporter.cpp 7-28,
    src/Benchmark/generate_matrix.cpp 61-62.

    Simplifications:
    - an archive is a list of tokens, a number or an element each; reading a
      token of the wrong kind or past the end throws, as boost's archives do;
      class versions and tracking headers are left out;
    - a data file is a list of elements; a trailing fraction of an element is
      left out; positions count elements;
    - the XML description is given as the parsed record;
    - file offsets whose byte count does not fit a signed 64-bit integer are
      outside the model ([UB SizeWrap]). *)
From Verif Require Import Base Dense_Model.

(** ** Archives *)
Inductive tok (T : Type) := TN (n : nat) | TV (v : T).
Arguments TN {T}. Arguments TV {T}.

(** Dimension.h 119-127 (rows, columns, full_size_), Storage.h 479-483. *)
Definition d_save {T} (d : dense T) : res (list (tok T)) :=
  do vs <- mapM (fun i => rd (d_buf d) (sh_base (d_sh d) + i)) (seq 0 (length (d_buf d)));
  Ok (TN (d_rows d) :: TN (d_cols d) :: TN (d_full d) :: TN (length (d_buf d)) :: map TV vs).

Definition get_n {T} (l : list (tok T)) : res (nat * list (tok T)) :=
  match l with TN n :: r => Ok (n, r) | _ => Throw end.
Definition get_v {T} (l : list (tok T)) : res (T * list (tok T)) :=
  match l with TV v :: r => Ok (v, r) | _ => Throw end.

(** Storage.h 485-492: the memory is allocated, then read element by element. *)
Definition load_values {T} (n : nat) (l : list (tok T)) : res (buf T * list (tok T)) :=
  forM n (fun i '(b, l) => do x <- get_v l; let '(v, l) := x in do b <- wr b i v; Ok (b, l)) (alloc n, l).

(** DenseMatrix.h 311-316: into the existing object [d]. *)
Definition d_load {T} (d : dense T) (l : list (tok T)) : res (dense T * list (tok T)) :=
  do a <- get_n l; let '(r, l) := a in
  do a <- get_n l; let '(c, l) := a in
  do a <- get_n l; let '(full, l) := a in
  do a <- get_n l; let '(size, l) := a in
  do a <- load_values size l; let '(b, l) := a in
  let sh := d_sh d in
  Ok (mkDense (mkShape (sh_o sh) r c (sh_sub sh) (sh_ldr sh) (sh_ldc sh) 0) full b true, l).

(** Several matrices in one archive. *)
Fixpoint save_all {T} (ds : list (dense T)) : res (list (tok T)) :=
  match ds with
  | [] => Ok []
  | d :: r => do a <- d_save d; do b <- save_all r; Ok (a ++ b)
  end.
Fixpoint load_all {T} (ds : list (dense T)) (l : list (tok T)) : res (list (dense T) * list (tok T)) :=
  match ds with
  | [] => Ok ([], l)
  | d :: r => do a <- d_load d l; let '(e, l) := a in do b <- load_all r l; let '(es, l) := b in Ok (e :: es, l)
  end.

(** ** Files *)
(** MatrixFileIO.h 14-22; the fields are size_t. *)
Record fset := mkFset {
  fs_rows : N; fs_cols : N; fs_rld : N; fs_cld : N; fs_roff : N; fs_coff : N
}.

(** An input stream: position and !fail(). *)
Definition istr : Type := nat * bool.
(** istream::read of [n] elements to position [a] of the memory: reads what is
    there; a short read sets failbit, after which nothing is read any more. *)
Definition i_read {T} (file : list T) (st : istr) (n : nat) (b : buf T) (a : nat) : res (istr * buf T) :=
  let '(pos, ok) := st in
  if ok : bool then
    let xs := firstn n (skipn pos file) in
    do b <- foldM (fun '(k, x) b => wr b (a + k) x) (enum xs) b;
    Ok ((pos + length xs, length xs =? n), b)
  else Ok (st, b).
(** istream::seekg(off, cur). *)
Definition i_seek (st : istr) (off : nat) : istr := let '(pos, ok) := st in if ok : bool then (pos + off, ok) else st.

Definition w64 (n : N) : N := (n mod 2 ^ 64)%N.

(** MatrixFileIO.h 25-54.  [file] is [None] if it cannot be opened; [sz] is
    sizeof(T).  The state of the stream is not examined after reading. *)
Definition file_read {T} (sz : N) (file : option (list T)) (s : fset) (m : dense T) : res (dense T) :=
  let nr := N.to_nat (fs_rows s) in
  let nc := N.to_nat (fs_cols s) in
  let '(m, threw) := d_resize m nr nc in
  if threw then Throw
  else if (fs_rld s <? w64 (fs_rows s + fs_roff s))%N then Throw
  else if (fs_cld s <? w64 (fs_cols s + fs_coff s))%N then Throw
  else
  match file with
  | None => Throw
  | Some file =>
      let base := sh_base (d_sh m) in
      if (fs_cols s =? fs_cld s)%N && (fs_rows s =? fs_rld s)%N then
        do x <- i_read file (0, true) (nr * nc) (d_buf m) base;
        Ok (with_buf m (snd x))
      else if (2 ^ 63 <=? (fs_coff s * fs_rld s + fs_roff s) * sz)%N || (2 ^ 63 <=? fs_rld s * sz)%N then UB SizeWrap
      else
        let st := i_seek (0, true) (N.to_nat (fs_coff s * fs_rld s + fs_roff s)) in
        do x <- forM nc (fun col '(st, b) =>
          do x <- i_read file st nr b (base + col * nr);
          let '(st, b) := x in
          Ok (i_seek st (N.to_nat (fs_rld s) - nr), b)) (st, d_buf m);
        Ok (with_buf m (snd x))
  end.

(** DenseMatrix.h 670-677: construction from a description file ([None]: it
    cannot be opened). *)
Definition d_from_file {T} (sz : N) (o : orient) (desc : option fset) (file : option (list T)) : res (dense T) :=
  match desc with None => Throw | Some s => file_read sz file s (d_default o) end.

(** generate_matrix.cpp 61-62: getSize() elements from getDataPointer(). *)
Definition raw_write {T} (d : dense T) : res (list T) :=
  mapM (fun i => rd (d_buf d) (sh_base (d_sh d) + i)) (seq 0 (d_full d)).

(** MatrixFileImporter.cpp 17-28 (header 7-15: [None] if it cannot be opened or
    parsed).  A short read throws. *)
Definition import_raw {T} (header : option (nat * nat)) (file : option (list T)) : res (dense T) :=
  match header, file with
  | Some (r, c), Some file =>
      let m := d_new ColMajor r c in
      do x <- i_read file (0, true) (r * c) (d_buf m) 0;
      let '(st, b) := x in
      if snd st : bool then Ok (with_buf m b) else Throw
  | _, _ => Throw
  end.
