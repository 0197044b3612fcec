(** Settings files: readXML, writeXML, readBinary, writeBinary of
    include/BlasBooster/Utilities/FileIO.h.

    Simplifications: the Boost archive is a parameter (what it writes before the object, for
    the object, after it; how it reads the file back); a file is a list of bytes; links
    between files, permissions and other processes are left out.  What a failing or
    interrupted write leaves behind is an argument of the operation. *)
From Verif Require Import Base.
Require Import String.
Local Open Scope list_scope.

Definition byte := nat.
Definition path := string.
Definition files := path -> option (list byte).
Definition put (fs : files) (p : path) (c : list byte) : files := fun q => if String.eqb q p then Some c else fs q.

(** The archive classes: xml_oarchive/xml_iarchive, binary_oarchive/binary_iarchive. *)
Inductive format := XML | Binary.
Record archive (T : Type) := mkArchive {
  a_head : format -> list byte;                           (* written by the constructor *)
  a_body : format -> string -> T -> option (list byte);   (* written by [<<]; None: it throws *)
  a_tail : format -> list byte;                           (* written by the destructor *)
  a_read : format -> string -> list byte -> option T      (* constructor and [>>]; None: it throws *)
}.
Arguments a_head {T}. Arguments a_body {T}. Arguments a_tail {T}. Arguments a_read {T}.

Section FileIO.
Context {T : Type} (ar : archive T).

(** FileIO.h 15-22 (XML), 34-41 (Binary): the value read; the files stay as they are. *)
Definition read_file (f : format) (fs : files) (name : string) (p : path) : res T :=
  match fs p with
  | None => Throw
  | Some c => match a_read ar f name c with Some v => Ok v | None => Throw end
  end.

(** How far a write gets: to its end; the device takes only [k] bytes, which is noticed or
    not (the last bytes are flushed by the destructor of std::ofstream, which does not report
    errors); the process dies after [k] bytes. *)
Inductive fate := Complete | Short (k : nat) (noticed : bool) | Dies (k : nat).
Inductive outcome := Returned | Threw | Died.

(** FileIO.h 24-31 (XML), 43-50 (Binary).  The stream's constructor empties the file. *)
Definition write_file (f : format) (fs : files) (name : string) (v : T) (p : path) (overwrite : bool) (ft : fate) : outcome * files :=
  if negb overwrite && match fs p with Some _ => true | None => false end then (Threw, fs)
  else
    match a_body ar f name v with
    | None => (Threw, put fs p (a_head ar f))
    | Some b =>
        let all := a_head ar f ++ b ++ a_tail ar f in
        match ft with
        | Complete => (Returned, put fs p all)
        | Short k noticed => (if noticed then Threw else Returned, put fs p (firstn k all))
        | Dies k => (Died, put fs p (firstn k all))
        end
    end.

(** One operation of a program. *)
Inductive op := ORead (f : format) (name : string) (p : path)
  | OWrite (f : format) (name : string) (v : T) (p : path) (overwrite : bool) (ft : fate).
Definition step (fs : files) (o : op) : outcome * files :=
  match o with
  | ORead f n p => (match read_file f fs n p with Ok _ => Returned | _ => Threw end, fs)
  | OWrite f n v p ow ft => write_file f fs n v p ow ft
  end.
(** A history (a process that died is started again). *)
Fixpoint run (fs : files) (l : list op) : list outcome * files :=
  match l with
  | [] => ([], fs)
  | o :: l => let (r, fs) := step fs o in let (rs, fs) := run fs l in (r :: rs, fs)
  end.
End FileIO.
