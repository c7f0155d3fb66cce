(** * Python strings handed to the bindings *)
From Verif Require Import Prelude M_Python.

(** a word: at least one code point, none of them a space, a newline, NUL or a surrogate *)
Definition py_word (w : list N) : Prop :=
  w <> [] /\ Forall (fun c => c <> 0 /\ c <> 32 /\ c <> 10 /\ ~ (0xD800 <= c <= 0xDFFF) /\ c < 0x110000) w.
Definition ascii (w : list N) : Prop := Forall (fun c => c < 128) w.
(** len(s) *)
Definition py_len (s : list N) : Z := Z.of_N (lenN s).
