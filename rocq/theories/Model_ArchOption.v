(* rrdesi --archetypes: the checks (external/desi.py 877-901) and the loading (903-906), without MPI.
   Simplifications: what the operating system says of the path is a record beside that of Model_FindArch.v; sys.exit(1) is its own outcome; messages are not modelled but for
   the type that is announced (894). *)
From Verif Require Import Prelude Model_IO Model_Zscan Model_Arch Model_FindArch Model_AllArch.
Local Open Scope string_scope.
Record place := { pl_exists : bool; pl_readable : bool; pl_isdir : bool; pl_isfile : bool; pl_entries : list string }.
Inductive outcome := Archetypes (d : list (string * archetype)) | Exit | Raised (e : exn).
(* 894: os.path.basename(a).split('-')[1].split('.')[0] (upper() left out) *)
Definition announced (a : string) : res string :=
  match nth_error (Model_IO.split "-" (basename a)) 1 with
  | None => Err IndexError
  | Some s => match Model_IO.split "." s with x :: _ => Ok x | [] => Err IndexError end
  end.
Definition load_option (fs : archfs) (read : string -> res archetype) (a : string) : outcome :=
  match All_archetypes fs read (Some a) with Ok d => Archetypes d | Err e => Raised e end.              (* 906 *)
Definition archetypes_option (pl : string -> place) (fs : archfs) (read : string -> res archetype) (a : string) : outcome :=
  let p := pl a in
  if pl_exists p && pl_readable p then                                                                    (* 879 *)
    if pl_isdir p && match pl_entries p with [] => true | _ => false end then Exit                        (* 880-890 *)
    else if pl_isfile p then                                                                              (* 892 *)
      match announced a with Err e => Raised e | Ok _ => load_option fs read a end                        (* 894 *)
    else load_option fs read a
  else Exit.                                                                                              (* 895-901 *)
