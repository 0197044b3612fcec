(** Specification vocabulary for sparse matrices: what an observer sees who walks
    the three arrays through beginOffset(), beginKey() and begin(). *)
From Verif Require Import Base Sparse_Model.

(** The compressed line holding element (i, j) and the key inside that line. *)
Definition line_of {T} (s : sparse T) (i j : nat) : nat :=
  match s_o s with ColMajor => j | RowMajor => i end.
Definition key_of {T} (s : sparse T) (i j : nat) : nat :=
  match s_o s with ColMajor => i | RowMajor => j end.

(** Position [p] belongs to line [l]. *)
Definition in_line {T} (s : sparse T) (l p : nat) : Prop :=
  exists b e, rd (s_off s) l = Ok b /\ rd (s_off s) (S l) = Ok e /\ b <= p < e.

(** The matrix stores the value [v] for element (i, j). *)
Definition stored {T} (s : sparse T) (i j : nat) (v : T) : Prop :=
  exists p, in_line s (line_of s i j) p /\
            rd (s_key s) p = Ok (key_of s i j) /\ rd (s_val s) p = Ok v.

(** Well-formed compressed storage: one offset per line plus one, starting at 0,
    never decreasing, the last not beyond the value array; as many keys as
    values; inside a line the keys increase strictly and are valid indices; every
    position in use is initialised. *)
Definition sp_wf {T} (s : sparse T) : Prop :=
  length (s_off s) = S (s_minor s) /\
  length (s_key s) = length (s_val s) /\
  rd (s_off s) 0 = Ok 0 /\
  (forall l, l < s_minor s -> exists b e,
     rd (s_off s) l = Ok b /\ rd (s_off s) (S l) = Ok e /\ b <= e <= length (s_val s)) /\
  (forall l p, in_line s l p -> exists k v,
     rd (s_key s) p = Ok k /\ rd (s_val s) p = Ok v /\ k < s_major s) /\
  (forall l p q k k', in_line s l p -> in_line s l q -> p < q ->
     rd (s_key s) p = Ok k -> rd (s_key s) q = Ok k' -> k < k').

(** [s] is a well-formed r x c sparse matrix storing exactly the elements [f]:
    [f i j = Some v] where a value is stored, [None] elsewhere. *)
Definition sp_mat {T} (s : sparse T) (r c : nat) (f : nat -> nat -> option T) : Prop :=
  sp_wf s /\ s_rows s = r /\ s_cols s = c /\ s_full s = r * c /\
  forall i j, i < r -> j < c -> forall v, f i j = Some v <-> stored s i j v.

(** The number of elements of an r x c array satisfying a predicate. *)
Definition count2 (r c : nat) (p : nat -> nat -> bool) : nat :=
  length (filter (fun '(i, j) => p i j)
            (flat_map (fun i => map (fun j => (i, j)) (seq 0 c)) (seq 0 r))).

(** Value of a possibly absent element. *)
Definition dflt {T} (z : T) (o : option T) : T := match o with Some v => v | None => z end.
