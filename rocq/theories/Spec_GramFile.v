(** * The layout of a count file: the number of lines, then the lines *)
From Verif Require Import Prelude M_Text Spec_ArpaFile.

(** a file that announces [n] lines and holds [lines], each ended by a newline *)
Definition count_file (n : N) (lines : list (list N)) : list N := text_of (decimal n :: lines).
(** the same, without the last newline *)
Definition count_file_cut (n : N) (lines : list (list N)) : list N := removelast (count_file n lines).
