(* archetypes.find_archetypes (archetypes.py 445-479) and the names under which Archetype opens the files it lists (archetypes.py 40: os.path.expandvars).
   Simplifications: what the operating system answers is a record; a directory is listed as the names in it that match rrarchetype-*.fits, in any order, and glob puts the directory
   before them as os.path.join does (a directory whose name contains *, ? or [ is not modelled); POSIX paths; characters are one byte. *)
From Verif Require Import Prelude Model_IO.
Open Scope nat_scope.
Local Open Scope string_scope.

(* os.path.isfile, the matching names of a directory, os.environ, and <code>/archetypes if it exists *)
Record archfs := { af_isfile : string -> bool; af_names : string -> list string; af_env : string -> option string; af_pkg : option string }.
(* \w of the ASCII regular expression of posixpath.expandvars *)
Definition is_word (c : ascii) : bool :=
  let n := nat_of_ascii c in (((48 <=? n) && (n <=? 57)) || ((65 <=? n) && (n <=? 90)) || ((97 <=? n) && (n <=? 122)) || (n =? 95))%nat%bool.
Fixpoint span_word (s : string) : string * string :=
  match s with
  | String c r => if is_word c then let (a, b) := span_word r in (String c a, b) else (EmptyString, s)
  | EmptyString => (EmptyString, EmptyString)
  end.
Fixpoint until_brace (s : string) : option (string * string) :=
  match s with
  | String c r => if Ascii.eqb c "}" then Some (EmptyString, r) else match until_brace r with Some (a, b) => Some (String c a, b) | None => None end
  | EmptyString => None
  end.
(* posixpath.expandvars: $name and ${name}, left as they are if the variable is not set; the value is not expanded again *)
Fixpoint expand_go (fuel : nat) (env : string -> option string) (s : string) : string :=
  match fuel, s with
  | S f, String c r =>
      if Ascii.eqb c "$" then
        match r with
        | String c1 r1 =>
            if Ascii.eqb c1 "{" then
              match until_brace r1 with
              | Some (n, rest) => (match env n with Some v => v | None => "${" ++ n ++ "}" end) ++ expand_go f env rest
              | None => String c (expand_go f env r)
              end
            else if is_word c1 then let (n, rest) := span_word r in (match env n with Some v => v | None => "$" ++ n end) ++ expand_go f env rest
            else String c (expand_go f env r)
        | EmptyString => s
        end
      else String c (expand_go f env r)
  | _, _ => s
  end.
Definition expandvars (env : string -> option string) (s : string) : string := expand_go (String.length s) env s.
(* str.replace(old, new) *)
Fixpoint drop (n : nat) (s : string) : string := match n, s with S m, String _ r => drop m r | _, _ => s end.
Fixpoint replace_go (fuel : nat) (old new s : string) : string :=
  match fuel with
  | S f => if String.prefix old s then new ++ replace_go f old new (drop (String.length old) s)
           else match s with String c r => String c (replace_go f old new r) | EmptyString => EmptyString end
  | O => s
  end.
Fixpoint between_all (new s : string) : string := match s with String c r => new ++ String c (between_all new r) | EmptyString => new end.
Definition replace (old new s : string) : string := match old with EmptyString => between_all new s | _ => replace_go (String.length s) old new s end.
(* 467, 474 *)
Definition glob (fs : archfs) (d : string) : list string := map (path_join d) (af_names fs d).
(* 459-479 *)
Definition find_archetypes (fs : archfs) (dir : option string) : res (list string) :=
  match dir with
  | None => match af_env fs "RR_ARCHETYPE_DIR" with
            | Some d => Ok (isort String.leb (glob fs d))
            | None => match af_pkg fs with Some d => Ok (isort String.leb (glob fs d)) | None => Err OSError end
            end
  | Some d => if af_isfile fs d then Ok [d]
              else let e := expandvars (af_env fs) d in Ok (isort String.leb (map (replace e d) (glob fs e)))
  end.
(* archetypes.py 40: the file that is opened for a name of the list *)
Definition opened_as (fs : archfs) (name : string) : string := expandvars (af_env fs) name.
