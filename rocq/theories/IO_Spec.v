(** Specification of archives and matrix files. *)
From Verif Require Import Base Dense_Model Dense_Spec IO_Model.

(** The file holds the R x C array [f] column by column (perhaps with more data
    behind it). *)
Definition file_holds {T} (file : list T) (R C : nat) (f : nat -> nat -> T) : Prop :=
  forall i j, i < R -> j < C -> nth_error file (j * R + i) = Some (f i j).

(** The window lies inside the stored matrix. *)
Definition window_fits (s : fset) : Prop :=
  (fs_roff s + fs_rows s <= fs_rld s /\ fs_coff s + fs_cols s <= fs_cld s)%N.

(** A matrix object that owns its memory and is not a window: any object built by
    the default, sizing, filling, copying or converting constructors. *)
Definition owning {T} (d : dense T) : Prop :=
  sh_sub (d_sh d) = false /\ sh_base (d_sh d) = 0 /\ d_own d = true.

(** Same class: same orientation, not a window. *)
Definition same_class {T} (a b : dense T) : Prop :=
  d_orient a = d_orient b /\ sh_sub (d_sh a) = false /\ sh_sub (d_sh b) = false.
