(* For Props_ModelFileMPI.v: the same model file up to the order of its HDUs, or no file in both cases. *)
From Verif Require Import Prelude.
Definition same_file {A} (m m' : res (list A)) : Prop := match m, m' with Ok h, Ok h' => Permutation h h' | Err _, Err _ => True | _, _ => False end.
