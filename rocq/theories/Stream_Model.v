(** Formatted output of times and norms: src/Benchmark/time.h, time.cpp,
    include/BlasBooster/Utilities/ScopedTimer.h, and the table of src/Benchmark/benchmark.cpp.

    Simplifications: a number is an abstract value, [render] turns it into text for a
    notation and a precision; the fill character is a blank; locales, copyfmt and the
    remaining format flags are left out. *)
From Verif Require Import Base.
Require Import String Ascii.
Local Open Scope list_scope.

(** The floatfield flag. *)
Inductive notation := General | Fixed | Scientific.
(** The format state of one std::ostream; [s_acc] is its iword entry (time.h 28-31). *)
Record stream := mkStream { s_not : notation; s_left : bool; s_width : nat; s_prec : Z; s_acc : Z }.
(** A new stream: precision 6, iword entries are zero. *)
Definition new_stream : stream := mkStream General false 0 6 0.

Section Streams.
Context {N : Type} (render : notation -> Z -> N -> string) (seconds : Z -> N).

Definition blanks (n : nat) : string := String.concat "" (repeat " "%string n).
Definition pad (left : bool) (w : nat) (t : string) : string :=
  let b := blanks (w - String.length t) in if left then (t ++ b)%string else (b ++ t)%string.

(** Formatted output of a text: padded to the width, which is then reset. *)
Definition put_text (s : stream) (t : string) : stream * string :=
  (mkStream (s_not s) (s_left s) 0 (s_prec s) (s_acc s), pad (s_left s) (s_width s) t).
Definition put_number (s : stream) (x : N) : stream * string := put_text s (render (s_not s) (s_prec s) x).

(** time.cpp 5-9, time.h 12-20: the accuracy is stored in the stream. *)
Definition put_accuracy (s : stream) (digits : Z) : stream := mkStream (s_not s) (s_left s) (s_width s) (s_prec s) digits.
(** time.cpp 11-19: the flags are saved and restored, the precision is not. *)
Definition put_duration (s : stream) (ns : Z) : stream * string :=
  let s1 := mkStream Fixed (s_left s) (s_width s) (s_acc s) (s_acc s) in
  let (s2, t) := put_number s1 (seconds ns) in
  (mkStream (s_not s) (s_left s) (s_width s2) (s_prec s2) (s_acc s2), t).

(** ScopedTimer.h 18-23, the destructor: label, elapsed seconds. *)
Definition put_timer (s : stream) (label : string) (precision : Z) (ns : Z) : stream * string :=
  let s1 := mkStream Fixed (s_left s) (s_width s) precision (s_acc s) in
  let (s2, t1) := put_text s1 label in
  let (s3, t2) := put_text s2 ": " in
  let (s4, t3) := put_number s3 (seconds ns) in
  let (s5, t4) := put_text s4 " s" in
  (s5, t1 ++ t2 ++ t3 ++ t4)%string.

(** One insertion into stream number [k]. *)
Inductive item :=
| INotation (n : notation)    (* std::fixed, std::scientific, std::defaultfloat *)
| ILeft (b : bool)            (* std::left, std::right *)
| IWidth (w : nat)            (* std::setw *)
| IPrecision (p : Z)          (* std::setprecision *)
| IAccuracy (d : Z)           (* set_duration_accuracy *)
| IText (t : string)
| INumber (x : N)
| IDuration (ns : Z)
| ITimer (label : string) (precision : Z) (ns : Z).
Definition insert (s : stream) (i : item) : stream * string :=
  match i with
  | INotation n => (mkStream n (s_left s) (s_width s) (s_prec s) (s_acc s), ""%string)
  | ILeft b => (mkStream (s_not s) b (s_width s) (s_prec s) (s_acc s), ""%string)
  | IWidth w => (mkStream (s_not s) (s_left s) w (s_prec s) (s_acc s), ""%string)
  | IPrecision p => (mkStream (s_not s) (s_left s) (s_width s) p (s_acc s), ""%string)
  | IAccuracy d => (put_accuracy s d, ""%string)
  | IText t => put_text s t
  | INumber x => put_number s x
  | IDuration ns => put_duration s ns
  | ITimer l p ns => put_timer s l p ns
  end.
(** A program writing to several streams: the text each insertion produced. *)
Definition streams := nat -> stream.
Fixpoint write_all (st : streams) (l : list (nat * item)) : streams * list string :=
  match l with
  | [] => (st, [])
  | (k, i) :: l =>
      let (s, t) := insert (st k) i in
      let (st', ts) := write_all (fun j => if j =? k then s else st j) l in
      (st', t :: ts)
  end.

(** benchmark.cpp 85-94 and 98-109: one row of the table: index, name, time, norms, details. *)
Definition row (first : bool) (digits : Z) (index name : string) (ns : Z) (n1 n2 : N) (details : string) : list item :=
  [IWidth 10; ILeft true; IText index; IWidth 30; ILeft true; IText name] ++
  (if first then [] else [IAccuracy digits]) ++
  [IWidth 15; IDuration ns; IWidth 15; INumber n1; IWidth 15; INumber n2; IText details; IText (String "010"%char "")].
(** 65-75: the heading. *)
Definition heading (digits : Z) : list item :=
  [INotation Scientific; IAccuracy digits; IText (String "010"%char "");
   IWidth 10; ILeft true; IText "matrix"; IWidth 30; ILeft true; IText "name"; IWidth 15; IText "time/s";
   IWidth 15; IText "max-norm"; IWidth 15; IText "2-norm"; IText ("details" ++ String "010"%char "")%string;
   IText (String.concat "" (repeat "-"%string 120)); IText (String "010"%char "")].
End Streams.
