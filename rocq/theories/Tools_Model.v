(** Model of the tools around the library.  Sources:
    include/BlasBooster/Utilities/EnumParser.h, TypeList.h, Tracker.h,
    src/Utilities/tracker.cpp, include/BlasBooster/Core/GenerateTypeMatrix.h,
    StatisticalErrorInformation.h, src/Benchmark/MatrixProvider.cpp/.h,
    ActionProvider.cpp/.h, generate_matrix.cpp, show_pattern.cpp, benchmark.cpp,
    src/MatrixFactory/MatrixGenerator.cpp.

    Simplifications:
    - std::map and std::unordered_map are association lists, the newest binding
      first; only look-up and assignment are used by the code;
    - a clock value and a duration are integers;
    - a property tree is the list of its children in file order, each node
      already parsed into the shape the code asks for. *)
From Coq Require Import String.
From Verif Require Import Base Dense_Model Sparse_Model Dyn_Model Norm_Model.

(** ** EnumParser.h *)
Fixpoint assoc {K V} (eqb : K -> K -> bool) (k : K) (l : list (K * V)) : option V :=
  match l with [] => None | (k', v) :: r => if eqb k k' then Some v else assoc eqb k r end.

Section EnumParser.
  Context {E : Type} (eqe : E -> E -> bool).
  Record eparser := mkEp { ep_s2e : list (string * E); ep_e2s : list (E * string) }.
  (** 22. *)
  Definition ep_new : eparser := mkEp [] [].
  (** 39-43. *)
  Definition ep_map (p : eparser) (s : string) (e : E) : eparser := mkEp ((s, e) :: ep_s2e p) ((e, s) :: ep_e2s p).
  Definition ep_build (l : list (string * E)) : eparser := fold_left (fun p '(s, e) => ep_map p s e) l ep_new.
  (** 24-36: look-up; without the assert the end iterator is dereferenced. *)
  Definition found {A} (dbg : bool) (o : option A) : res A :=
    match o with Some a => Ok a | None => do _ <- cassert dbg false; UB OOBRead end.
  Definition ep_parse (dbg : bool) (p : eparser) (s : string) : res E := found dbg (assoc String.eqb s (ep_s2e p)).
  Definition ep_name (dbg : bool) (p : eparser) (e : E) : res string := found dbg (assoc eqe e (ep_e2s p)).
End EnumParser.
Arguments eparser : clear implicits.

(** ** Tracker.h *)
(** 13-40: the enumerators; an identifier is its number. *)
Definition tracker_names : list string :=
  ["OpenBLAS_dgemm"; "OpenBLAS_sgemm"; "IntelMKL_dgemm"; "IntelMKL_sgemm"; "IntelMKL_dcsrmm"; "IntelMKL_scsrmm";
   "IntelMKL_dcsrmultcsr"; "IntelMKL_scsrmultcsr"; "Eigen_dgemm"; "Eigen_sgemm"; "Eigen_sdgemm"; "Eigen_dsgemm";
   "Blaze_dgemm"; "Blaze_sgemm"; "Blaze_sdgemm"; "Blaze_dsgemm"; "Native_GeneralDense"; "Native_sparse";
   "Native_sparse_dense"; "Native_dense_sparse"; "Native_matrix_zero"; "Native_zero_matrix"; "Native_zero_zero";
   "get_detection_arrays"; "get_block_size"]%string.
Definition tracker_size : nat := 25.
(** 45-73: the calls of map(), name and enumerator. *)
Definition tracker_calls : list (string * string) :=
  [("OpenBLAS_dgemm", "OpenBLAS_dgemm"); ("OpenBLAS_sgemm", "OpenBLAS_sgemm"); ("IntelMKL_dgemm", "IntelMKL_dgemm");
   ("IntelMKL_sgemm", "IntelMKL_sgemm"); ("IntelMKL_dcsrmm", "IntelMKL_dcsrmm");
   ("IntelMKL_scsrmm", "IntelMKL_scsrmm"); ("IntelMKL_dcsrmultcsr", "IntelMKL_dcsrmultcsr");
   ("IntelMKL_scsrmultcsr", "IntelMKL_scsrmultcsr"); ("Eigen_dgemm", "Eigen_dgemm"); ("Eigen_sgemm", "Eigen_sgemm");
   ("Eigen_sdgemm", "Eigen_sdgemm"); ("Eigen_dsgemm", "Eigen_dsgemm"); ("Blaze_dgemm", "Blaze_dgemm");
   ("Blaze_sgemm", "Blaze_sgemm"); ("Blaze_sdgemm", "Blaze_sdgemm"); ("Blaze_dsgemm", "Blaze_dsgemm");
   ("Native_GeneralDense", "Native_GeneralDense"); ("Native_sparse", "Native_sparse");
   ("Native_sparse_dense", "Native_sparse_dense"); ("Native_dense_sparse", "Native_dense_sparse");
   ("Native_matrix_zero", "Native_matrix_zero"); ("Native_zero_matrix", "Native_zero_matrix");
   ("Native_zero_zero", "Native_zero_zero"); ("get_detection_arrays", "get_detection_arrays");
   ("get_block_size", "get_block_size")]%string.
Fixpoint index_of (s : string) (l : list string) : nat :=
  match l with [] => 0 | x :: r => if String.eqb s x then 0 else S (index_of s r) end.
Definition tracker_map : list (string * nat) := map (fun p => (fst p, index_of (snd p) tracker_names)) tracker_calls.
Definition tracker_parser : eparser nat := ep_build tracker_map.

(** 97-98, tracker.cpp 6-7: static arrays, zero before the program starts. *)
Record treg := mkReg { tr_time : list Z; tr_count : list nat }.
Definition treg0 : treg := mkReg (repeat 0%Z tracker_size) (repeat 0 tracker_size).
(** 76-80. *)
Definition treg_add (id : nat) (d : Z) (r : treg) : res treg :=
  match nth_error (tr_time r) id, nth_error (tr_count r) id with
  | Some t, Some c => Ok (mkReg (upd (tr_time r) id (t + d)%Z) (upd (tr_count r) id (c + 1)))
  | _, _ => UB OOBWrite
  end.
(** 101-113: a tracked scope is entered (constructor) and left (destructor, also
    when an exception leaves the scope); scopes nest. *)
Inductive tevent := TEnter (id : nat) (now : Z) | TLeave (now : Z).
Definition tstate : Type := list (nat * Z) * treg.
Definition tstep (e : tevent) (s : tstate) : res tstate :=
  let '(stack, r) := s in
  match e with
  | TEnter id now => Ok ((id, now) :: stack, r)
  | TLeave now =>
      match stack with
      | [] => UB DeadObject
      | (id, start) :: rest => do r <- treg_add id (now - start)%Z r; Ok (rest, r)
      end
  end.
(** 82-95: the rows printed: name, count, time. *)
Definition treg_print (dbg : bool) (r : treg) : res (list (string * nat * Z)) :=
  forM tracker_size (fun i out =>
    match nth_error (tr_count r) i, nth_error (tr_time r) i with
    | Some c, Some t =>
        if c =? 0 then Ok out else do n <- ep_name Nat.eqb dbg tracker_parser i; Ok (out ++ [(n, c, t)])
    | _, _ => UB OOBRead
    end) [].

(** ** Band matrices: generate_matrix.cpp 46-53, MatrixProvider.cpp 27-33 *)
(** The bound [rows-b] is computed in 64 bits. *)
Definition wsub (a b : nat) : nat := if b <=? a then a - b else N.to_nat (2 ^ 64 - N.of_nat (b - a)).
Definition band_fill {D} (dbg : bool) (rows bw : nat) (v : D) (d : dense D) : res (dense D) :=
  forM bw (fun b d => forM (wsub rows b) (fun i d => do d <- dset dbg d (i + b) i v; dset dbg d i (i + b) v) d) d.
Definition band_matrix {D} (dbg : bool) (zero : D) (rows cols bw : nat) (v : D) : res (dense D) :=
  do d <- all_filler zero (d_new ColMajor rows cols); band_fill dbg rows bw v d.

(** ** MatrixProvider.cpp 16-48 *)
Inductive node (D : Type) := NBand (dims widths : list nat) (v : D) | NText (s : string) | NBad.
Arguments NBand {D}. Arguments NText {D}. Arguments NBad {D}.
Definition mset (D : Type) := list (string * list (dense D)).
Definition ms_find {D} (m : mset D) (n : string) : option (list (dense D)) := assoc String.eqb n m.
(** matrix_set[n] = l. *)
Definition ms_put {D} (m : mset D) (n : string) (l : list (dense D)) : mset D := (n, l) :: m.
(** matrix_set[n].push_back(x). *)
Definition ms_push {D} (m : mset D) (n : string) (x : dense D) : mset D :=
  ms_put m n (match ms_find m n with Some l => l | None => [] end ++ [x]).

Section Provider.
  Context {D : Type} (dbg : bool) (zero : D) (read_file : string -> res (dense D)).

  (** 19-44, one (name, type) entry.  A node of the wrong shape makes the
      property tree throw.  38: assigning a vector from its own iterators is not
      allowed. *)
  Definition mp_entry (name type : string) (nd : node D) (m : mset D) : res (mset D) :=
    if String.eqb type "DiagonalBand" then
      match nd with
      | NBand dims widths v =>
          foldM (fun dim m => foldM (fun bw m => do x <- band_matrix dbg zero dim dim bw v; Ok (ms_push m name x)) widths m) dims m
      | _ => Throw
      end
    else if String.eqb type "EqualTo" then
      match nd with
      | NText src =>
          match ms_find m src with
          | None => Throw
          | Some l => if String.eqb src name then UB DeadObject else Ok (ms_put m name l)
          end
      | _ => Throw
      end
    else if String.eqb type "File" then
      match nd with
      | NText f => do x <- read_file f; Ok (ms_push m name x)
      | _ => Throw
      end
    else (* 43: an exception object is created, not thrown *) Ok m.

  Definition tree := list (string * list (string * node D)).
  Definition mp_new (t : tree) : res (mset D) :=
    foldM (fun '(name, leaves) m => foldM (fun '(type, nd) m => mp_entry name type nd m) leaves m) t [].
  (** MatrixProvider.h 27: find(name)->second. *)
  Definition mp_get (m : mset D) (n : string) : res (list (dense D)) :=
    match ms_find m n with Some l => Ok l | None => UB OOBRead end.
End Provider.

(** ** ActionProvider.cpp 33-107: [known] are the names compiled in. *)
Definition ap_new {A} (known : string -> option A) (t : list string) : list A :=
  fold_left (fun l n => match known n with Some a => l ++ [a] | None => l end) t [].

(** ** benchmark.cpp 78-83: the checks before the runs. *)
Definition bench_setup {D A} (m : mset D) (actions : list A) : res (list (dense D * dense D)) :=
  do la <- mp_get m "A"; do lb <- mp_get m "B";
  if length la =? 0 then Throw
  else if negb (length la =? length lb) then Throw
  else if length actions =? 0 then Throw
  else Ok (combine la lb).

(** ** GenerateTypeMatrix.h *)
Section TypeMatrix.
  Context {F D : Type} (ar : arith F D) (nx : nops F D).

  (** The common loop of 13-25, 35-48, 58-70: the iterator of the new matrix runs
      in step with that of the blocked matrix. *)
  Definition gen_matrix {U} (g : option (dyn F D) -> res U) (b : blocked F D) : res (dense U) :=
    do ads <- iter_addrs (b_mat b);
    foldM (fun '(k, a) t =>
      do p <- rdz (d_buf (b_mat b)) a;
      do v <- g p;
      do m <- wr (d_buf t) k v; Ok (with_buf t m)) (enum ads) (d_new ColMajor (d_rows (b_mat b)) (d_cols (b_mat b))).
  Definition type_of_ptr (p : option (dyn F D)) : res nat := do d <- deref p; Ok (type_index d).
  Definition dim_of_ptr (exc dbg : bool) (p : option (dyn F D)) : res (nat * nat) :=
    do r <- dyn_rows exc dbg p; do c <- dyn_cols exc dbg p; Ok (r, c).
  (** DynamicMatrixFunctions.h 70-90 and MultipleMatrix.h 84-89, with empty caches. *)
  Definition norm_of_ptr (exc dbg : bool) (p : option (dyn F D)) : res D :=
    exec_member exc dbg (fun d => match d with
      | DL l => norm_leaf ar nx NTwo l
      | DM _ _ _ _ => do _ <- core_failure exc dbg; Ok (d0 ar)
      end) p.
  Definition generateTypeMatrix : blocked F D -> res (dense nat) := gen_matrix type_of_ptr.
  Definition generateDimensionMatrix (exc dbg : bool) : blocked F D -> res (dense (nat * nat)) := gen_matrix (dim_of_ptr exc dbg).
  Definition generateNormMatrix (exc dbg : bool) : blocked F D -> res (dense D) := gen_matrix (norm_of_ptr exc dbg).

  (** 28-33: [init] is what the array holds at first.  The code does not
      initialise it. *)
  Definition type_counting_from (init : buf nat) (b : blocked F D) : res (buf nat) :=
    do ads <- iter_addrs (b_mat b);
    foldM (fun a cnt =>
      do p <- rdz (d_buf (b_mat b)) a;
      do t <- type_of_ptr p;
      do n <- rd cnt t;
      wr cnt t (n + 1)) ads init.
  Definition get_type_counting : blocked F D -> res (buf nat) := type_counting_from (alloc (length type_list)).
  (** benchmark.cpp 107-113: what is printed about a result [C] and the reference
      result: the maximum norm and the 2-norm of the difference. *)
  Definition bench_report (dbg : bool) (C refC : dense D) : res (D * D) :=
    do d <- bin_leaf ar Minus dbg (LDd C) (LDd refC);
    do m <- norm_leaf ar nx NMax d;
    do t <- norm_leaf ar nx NTwo d; Ok (m, t).
End TypeMatrix.

(** ** show_pattern.cpp 78-131: the picture of the block types.  [shade t] is
    pow(10, -t). *)
Section Blocks.
  Context {D : Type} (zero : D) (shade : nat -> D).

  (** 113-120: one block, a window of the picture. *)
  Definition paint_block (dbg : bool) (bw : nat) (t : nat) (w : dense D) : res (dense D) :=
    do w <- all_filler (shade t) w;
    forM bw (fun i w =>
      do w <- forM (d_rows w) (fun j w => dset dbg w j i zero) w;
      if d_cols w <? bw then do _ <- cassert dbg false; UB OOBWrite  (* [j = bw; j != columns] runs on *)
      else foldM (fun j w => dset dbg w i j zero) (seq bw (d_cols w - bw)) w) w.

  Definition type_blocks (dbg : bool) (rows cols bw : nat) (types : dense nat) (dims : dense (nat * nat)) : res (dense D) :=
    do st <- forM (d_rows types) (fun I '(out, ro, tmp) =>
      do ads <- cur_addrs (d_sh types) DRow DCol I;
      do st <- foldM (fun '(k, a) '(out, co, tmp) =>
          do t <- rd (d_buf types) a;
          do p <- rd (d_buf dims) (cur_begin (d_sh dims) DRow I + k * cur_stride (d_sh dims) DCol);
          do w <- paint_block dbg bw t (d_window out (fst p) (snd p) ro co);
          Ok (with_buf out (d_buf w), co + snd p, fst p)) (enum ads) (out, 0, tmp);
      let '(out, _, tmp) := st in Ok (out, ro + tmp, tmp)) (d_new ColMajor rows cols, 0, 0);
    let '(out, _, _) := st in Ok out.
  (** 84-124: from the blocked matrix. *)
  Definition type_picture {F DD} (exc dbg : bool) (rows cols bw : nat) (b : blocked F DD) : res (dense D) :=
    do types <- generateTypeMatrix b;
    do dims <- generateDimensionMatrix exc dbg b;
    type_blocks dbg rows cols bw types dims.
End Blocks.

(** ** StatisticalErrorInformation.h *)
(** The cells visited from begin() to end(): a dense matrix or window, or the
    value array of a sparse one. *)
Definition dense_cells {T} (d : dense T) : res (list (option T)) := do ads <- iter_addrs d; mapM (rdzc (d_buf d)) ads.
Definition sparse_cells {T} (s : sparse T) : res (list (option T)) := Ok (s_val s).

Section Deviation.
  Context {A B D : Type} (zero : D) (diff : A -> B -> D) (absd : D -> D) (sq : D -> D) (lt : D -> D -> bool) (add : D -> D -> D)
          (root : D -> D) (divn : D -> nat -> D).
  Definition val {T} (c : option (option T)) : res T :=
    match c with Some (Some x) => Ok x | Some None => UB UninitRead | None => UB OOBRead end.
  (** 6-17 and 20-29: B's iterator runs in step with A's. *)
  Definition dev_loop (acc : D -> D -> D) (ca : list (option A)) (cb : list (option B)) : res D :=
    foldM (fun '(k, c) s => do x <- val (Some c); do y <- val (nth_error cb k); Ok (acc s (diff x y))) (enum ca) zero.
  Definition max_deviation (ca : res (list (option A))) (cb : res (list (option B))) : res D :=
    do ca <- ca; do cb <- cb;
    dev_loop (fun s x => if lt s (absd x) then absd x else s) ca cb.
  Definition rms_deviation (rows cols : nat) (ca : res (list (option A))) (cb : res (list (option B))) : res D :=
    do ca <- ca; do cb <- cb;
    do s <- dev_loop (fun s x => add s (sq x)) ca cb; Ok (root (divn s (rows * cols))).
End Deviation.

(** ** MatrixGenerator.cpp 6-21.  [e] is the engine's state; [d1] draws the
    exponent, [d2] the sign.  C++ leaves open which of the two operands of the
    product is evaluated first: [sign_first].  [settings.occupation] is not
    used. *)
Section Generator.
  Context {D E : Type} (elem : bool -> D -> D) (d1 : E -> D * E) (d2 : E -> bool * E) (sign_first : bool).
  Definition draw (e : E) : D * E :=
    if sign_first then let '(s, e) := d2 e in let '(u, e) := d1 e in (elem s u, e)
    else let '(u, e) := d1 e in let '(s, e) := d2 e in (elem s u, e).
  Definition generate_random (e : E) (r c : nat) : res (dense D) :=
    let m := d_new ColMajor r c in
    do ads <- iter_addrs m;
    do st <- foldM (fun a '(m, e) =>
      let '(x, e) := draw e in do b <- wrz (d_buf m) a x; Ok (with_buf m b, e)) ads (m, e);
    Ok (fst st).
End Generator.
