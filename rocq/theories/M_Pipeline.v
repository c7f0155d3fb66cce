(** * Preparing the input files: sort_grams on each file of a directory

    src/sort_grams.cpp main with the files as bytes: the vocabulary and the n-grams are read through
    grams_gzparser (M_GramFile; compression is not modelled), the output is opened in append mode. *)
From Verif Require Import Prelude M_Word M_Text M_Pool M_Trie M_Sort M_ArpaFile M_GramFile M_Programs.

(** bytes of lines written with operator<< and a newline each (sorters/sorter.hpp 111-171, the line handlers of sorters/sorter_common.hpp) *)
Definition bytes_of_lines (ls : list (list N)) : list N := concat (map (fun l => l ++ [10]) ls).

(** main of sort_grams.cpp, lines 28-100: vocabulary (57-60), input and its number of lines (62-75), sort and merge (76-98);
    [old] is what the output file holds already *)
Definition sort_grams_file (env : senv) (srt : (@srec N -> @srec N -> res bool) -> list (@srec N) -> list (@srec N))
    (vocab input old : list N) : res (list N) :=
  vl <- gram_lines vocab ;; ls <- gram_lines input ;;
  out <- sort_grams env srt vl (lenN ls) ls [] ;; Ok (old ++ bytes_of_lines out).

(** the directory a user prepares: the unigrams as they are, each longer file sorted into a new file
    ([envs k]: hash function, peeling order and memory of the run for the order k) *)
Definition sorted_dir (envs : N -> senv) (srt : (@srec N -> @srec N -> res bool) -> list (@srec N) -> list (@srec N)) (d : dir) : dir :=
  fun k => if k =? 1 then d 1 else
    match d 1, d k with
    | Some voc, Some inp => match sort_grams_file (envs k) srt voc inp [] with Ok out => Some out | _ => None end
    | _, _ => None
    end.
