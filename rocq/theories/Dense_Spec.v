(** Specification vocabulary for dense matrices: what an observer of the public
    interface (getNbRows, getNbColumns, operator()) sees.  No loop of the model
    appears here. *)
From Verif Require Import Base Dense_Model.

(** The matrix or window [d] shows, through [operator()] with all asserts
    enabled, an [r] x [c] array of values [f]. *)
Definition view {T} (d : dense T) (r c : nat) (f : nat -> nat -> T) : Prop :=
  d_rows d = r /\ d_cols d = c /\
  forall i j, i < r -> j < c -> dget true d i j = Ok (f i j).

(** A matrix that is not a window and whose memory has exactly rows*columns cells. *)
Definition wf_mem {T} (d : dense T) : Prop :=
  sh_sub (d_sh d) = false /\ sh_base (d_sh d) = 0 /\ length (d_buf d) = d_rows d * d_cols d.

(** getSize() agrees with the dimensions. *)
Definition full_ok {T} (d : dense T) : Prop := d_getSize d = d_rows d * d_cols d.

(** A dense matrix object holding the array [f]. *)
Definition is_mat {T} (d : dense T) (r c : nat) (f : nat -> nat -> T) : Prop :=
  wf_mem d /\ view d r c f.

(** [w] is a window with upper left corner (br, bc) lying inside the column-major
    matrix [p]. *)
Definition inside {T} (p : dense T) (nr nc br bc : nat) : Prop :=
  wf_mem p /\ d_orient p = ColMajor /\ br + nr <= d_rows p /\ bc + nc <= d_cols p.

(** Cell (memory index) designated by row [i], column [j] of [d]. *)
Definition cell {T} (dbg : bool) (d : dense T) (i j : nat) : res nat :=
  do p <- position dbg (d_sh d) i j; Ok (sh_base (d_sh d) + p).

(** Any matrix the API can hand out: an owning (or external-memory) matrix, or a
    window inside a column-major one. *)
Inductive legal {T} : dense T -> Prop :=
| legal_own d : wf_mem d -> legal d
| legal_win p nr nc br bc : inside p nr nc br bc -> legal (d_window p nr nc br bc).
