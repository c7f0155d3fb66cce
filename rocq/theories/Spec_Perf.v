(** * What a line of a query file asks for: the text before the first tab *)
From Verif Require Import Prelude Spec Spec_Trie.
Definition query_line (l : list N) (g : gram) : Prop := l = join g \/ exists note, l = join g ++ 9 :: note.
