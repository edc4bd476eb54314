(* archetypes.All_archetypes from a place (archetypes.py 411-426): find_archetypes, Archetype for every listed name, a dictionary by RRTYPE.
   Simplification: reading a file is a function from the opened path to an archetype or an exception (Archetype.__init__ 36-77; Model_Arch.v says what an archetype holds). *)
From Verif Require Import Prelude Model_Zscan Model_Arch Model_FindArch.
Definition All_archetypes (fs : archfs) (read : string -> res archetype) (dir : option string) : res (list (string * archetype)) :=
  do names <- find_archetypes fs dir;                              (* 415 *)
  do l <- mapM (fun f => read (opened_as fs f)) names;             (* 419-420 *)
  Ok (all_archetypes l).                                           (* 424 *)
