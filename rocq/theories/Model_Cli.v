(* Model of the command lines: the options of rrdesi (external/desi.py 686-790) and rrboss (external/boss.py 305-367) as
   read by argparse, the command wrap-redrock launches (bin/wrap-redrock 321-335, 353), and what rrdesi does with some of
   the options (desi.py 796-827, 1019-1062, 1093-1237).
   argparse: ArgumentParser.parse_args of the Python library for parsers without positional arguments and without options that look like
   negative numbers, with prefix_chars "-" and abbreviations allowed.  Simplifications: int() takes an optional sign and
   digits only (no blanks, no underscores); the texts float() takes are a parameter; -h followed by letters is an error
   (argparse prints the help or an error, and exits in both cases). *)
From Verif Require Import Prelude Model_Zscan Model_IO Model_Arch Model_Wrap.
Open Scope string_scope. Open Scope list_scope. Open Scope nat_scope.

Inductive arity := Flag | Help | One | Plus | Star.          (* store_true, -h, one value, nargs='+', nargs='*' *)
Inductive vtype := TStr | TInt | TFloat | TChoice (l : list string).
Record opt := { o_names : list string; o_dest : string; o_arity : arity; o_type : vtype; o_required : bool }.
Definition parser := list opt.
Inductive parsed := Settings (d : list (string * list string)) | Exits (code : nat).

(* text before and after the first occurrence of c *)
Fixpoint cut (c : ascii) (s : string) : option (string * string) :=
  match s with
  | EmptyString => None
  | String a r => if Ascii.eqb a c then Some (EmptyString, r) else match cut c r with Some (x, y) => Some (String a x, y) | None => None end
  end.
Definition is_digit (a : ascii) : bool := let n := nat_of_ascii a in (48 <=? n) && (n <=? 57).
Fixpoint all_digits (s : string) : bool := match s with EmptyString => true | String a r => is_digit a && all_digits r end.
Definition digits1 (s : string) : bool := negb (String.eqb s "") && all_digits s.
(* the regular expression of argparse for negative numbers: -d+ or -d*.d+ *)
Definition negative_number (s : string) : bool :=
  match s with
  | String "-" r => digits1 r || match cut "." r with Some (a, b) => all_digits a && digits1 b | None => false end
  | _ => false
  end.
Definition int_ok (s : string) : bool := match s with String "-" r | String "+" r => digits1 r | _ => digits1 s end.
Fixpoint has_blank (s : string) : bool := match s with EmptyString => false | String a r => Ascii.eqb a " " || has_blank r end.

(* the option strings of a parser, in the order of add_argument *)
Definition option_strings (p : parser) : list (string * opt) := concat (map (fun o => map (fun n => (n, o)) (o_names o)) p).
Definition lookup (p : parser) (s : string) : option opt := match find (fun q => String.eqb (fst q) s) (option_strings p) with Some q => Some (snd q) | None => None end.

(* the class of each word: a value, the word "--", an option (None: unknown) with the value joined to it, or an ambiguous abbreviation *)
Inductive token := TVal | TDash | TOpt (o : option opt) (joined : option string) | TAmbiguous.
(* argparse _get_option_tuples *)
Definition matches (p : parser) (s : string) : list (opt * option string) :=
  match s with
  | String "-" (String "-" _) =>
      let '(pre, joined) := match cut "=" s with Some (a, b) => (a, Some b) | None => (s, None) end in
      map (fun q => (snd q, joined)) (filter (fun q => String.prefix pre (fst q)) (option_strings p))
  | String "-" (String c r) =>
      concat (map (fun q => if String.eqb (fst q) (String "-" (String c "")) then [(snd q, Some r)]
                            else if String.prefix s (fst q) then [(snd q, None)] else []) (option_strings p))
  | _ => []
  end.
(* argparse _parse_optional *)
Definition classify (p : parser) (s : string) : token :=
  match s with
  | String "-" r =>
      match lookup p s with
      | Some o => TOpt (Some o) None
      | None =>
          if String.eqb r "" then TVal
          else
            let joined := match cut "=" s with Some (a, b) => match lookup p a with Some o => Some (o, b) | None => None end | None => None end in
            match joined with
            | Some (o, b) => TOpt (Some o) (Some b)
            | None =>
                match matches p s with
                | _ :: _ :: _ => TAmbiguous
                | [(o, b)] => TOpt (Some o) b
                | [] => if negative_number s then TVal else if has_blank s then TVal else TOpt None None
                end
            end
      end
  | _ => TVal
  end.
(* all the words; after "--" every word is a value *)
Fixpoint classes (p : parser) (ws : list string) : list (string * token) :=
  match ws with
  | [] => []
  | w :: r => if String.eqb w "--" then (w, TDash) :: map (fun x => (x, TVal)) r else (w, classify p w) :: classes p r
  end.

Section Parse.
Variable float_ok : string -> bool.
Definition value_ok (t : vtype) (v : string) : bool :=
  match t with TStr => true | TInt => int_ok v | TFloat => float_ok v | TChoice l => existsb (String.eqb v) l end.
(* argparse take_action: conversion, then the value is stored under the name; a later one replaces it *)
Definition store (d : list (string * list string)) (o : opt) (vs : list string) : option (list (string * list string)) :=
  if forallb (value_ok (o_type o)) vs then Some (sset d (o_dest o) vs) else None.
(* the end of the values of an option *)
Definition close (d : list (string * list string)) (cur : option (opt * list string)) : option (list (string * list string)) :=
  match cur with
  | None => Some d
  | Some (o, vs) => match o_arity o, vs with One, [] | Plus, [] => None | _, _ => store d o vs end
  end.
(* argparse consume_optional and the loop over the words.  cur: the option which still takes values; extra: whether some
   word was not recognised *)
Fixpoint consume (toks : list (string * token)) (cur : option (opt * list string)) (d : list (string * list string)) (extra : bool) : parsed :=
  match toks with
  | [] => match close d cur with None => Exits 2 | Some d' => if extra then Exits 2 else Settings d' end
  | (s, TVal) :: r =>
      match cur with
      | Some (o, vs) =>
          match o_arity o with
          | One => match store d o [s] with Some d' => consume r None d' extra | None => Exits 2 end
          | _ => consume r (Some (o, vs ++ [s])) d extra
          end
      | None => consume r None d true
      end
  | (s, TDash) :: r => match close d cur with None => Exits 2 | Some d' => consume r None d' true end
  | (s, TAmbiguous) :: r => Exits 2
  | (s, TOpt o joined) :: r =>
      match close d cur with
      | None => Exits 2
      | Some d' =>
          match o, joined with
          | None, _ => consume r None d' true
          | Some o, None =>
              match o_arity o with
              | Help => Exits 0
              | Flag => match store d' o [] with Some d'' => consume r None d'' extra | None => Exits 2 end
              | _ => consume r (Some (o, [])) d' extra
              end
          | Some o, Some v =>
              match o_arity o with
              | Help | Flag => Exits 2
              | _ => match store d' o [v] with Some d'' => consume r None d'' extra | None => Exits 2 end
              end
          end
      end
  end.
Definition ambiguous (p : parser) (ws : list string) : bool := existsb (fun q => match snd q with TAmbiguous => true | _ => false end) (classes p ws).
Definition parse_args (p : parser) (ws : list string) : parsed :=
  if ambiguous p ws then Exits 2
  else match consume (classes p ws) None [] false with
       | Exits c => Exits c
       | Settings d => if forallb (fun o => negb (o_required o) || match sget d (o_dest o) with Some _ => true | None => false end) p then Settings d else Exits 2
       end.
End Parse.

Definition opt1 (names : list string) (dest : string) (t : vtype) : opt := {| o_names := names; o_dest := dest; o_arity := One; o_type := t; o_required := false |}.
Definition flag (name dest : string) : opt := {| o_names := [name]; o_dest := dest; o_arity := Flag; o_type := TStr; o_required := false |}.
Definition help : opt := {| o_names := ["-h"; "--help"]; o_dest := "help"; o_arity := Help; o_type := TStr; o_required := false |}.
(* external/desi.py 689-784 *)
Definition rrdesi_parser : parser :=
  [ help;
    {| o_names := ["-t"; "--templates"]; o_dest := "templates"; o_arity := Plus; o_type := TStr; o_required := false |};
    opt1 ["--archetypes"] "archetypes" TStr;
    opt1 ["--archetype-legendre-degree"] "archetype_legendre_degree" TInt;
    opt1 ["--archetype-nnearest"] "archetype_nnearest" TInt;
    opt1 ["--archetype-legendre-percamera"] "archetype_legendre_percamera" (TChoice ["True"; "False"]);
    opt1 ["--archetype-legendre-prior"] "archetype_legendre_prior" TFloat;
    flag "--archetypes-no-legendre" "archetypes_no_legendre";
    opt1 ["--zminfit-npoints"] "zminfit_npoints" TInt;
    opt1 ["-d"; "--details"] "details" TStr;
    opt1 ["-o"; "--outfile"] "outfile" TStr;
    opt1 ["--model"] "model" TStr;
    opt1 ["--targetids"] "targetids" TStr;
    opt1 ["--mintarget"] "mintarget" TInt;
    opt1 ["--priors"] "priors" TStr;
    opt1 ["--chi2-scan"] "chi2_scan" TStr;
    opt1 ["--zscan-galaxy"] "zscan_galaxy" TStr;
    opt1 ["--zscan-qso"] "zscan_qso" TStr;
    opt1 ["--zscan-star"] "zscan_star" TStr;
    opt1 ["-n"; "--ntargets"] "ntargets" TInt;
    opt1 ["--nminima"] "nminima" TInt;
    flag "--allspec" "allspec";
    opt1 ["--ncpu"] "ncpu" TInt;
    opt1 ["--mp"] "mp" TInt;
    flag "--no-skymask" "no_skymask";
    flag "--no-mpi-abort" "no_mpi_abort";
    flag "--debug" "debug";
    opt1 ["--cosmics-nsig"] "cosmics_nsig" TFloat;
    opt1 ["--negflux-nsig"] "negflux_nsig" TFloat;
    {| o_names := ["-i"; "--infiles"]; o_dest := "infiles"; o_arity := Plus; o_type := TStr; o_required := true |};
    flag "--gpu" "gpu";
    opt1 ["--max-gpuprocs"] "max_gpuprocs" TInt ]%string.
(* external/boss.py 308-361 *)
Definition rrboss_parser : parser :=
  [ help;
    {| o_names := ["--spplate"]; o_dest := "spplate"; o_arity := Star; o_type := TStr; o_required := true |};
    opt1 ["-t"; "--templates"] "templates" TStr;
    opt1 ["--archetypes"] "archetypes" TStr;
    opt1 ["-o"; "--output"] "output" TStr;
    opt1 ["--zbest"] "zbest" TStr;
    opt1 ["--targetids"] "targetids" TStr;
    opt1 ["--mintarget"] "mintarget" TInt;
    opt1 ["--priors"] "priors" TStr;
    opt1 ["--chi2-scan"] "chi2_scan" TStr;
    opt1 ["-n"; "--ntargets"] "ntargets" TInt;
    opt1 ["--nminima"] "nminima" TInt;
    flag "--allspec" "allspec";
    opt1 ["--mp"] "mp" TInt;
    flag "--use-frames" "use_frames";
    flag "--use-andmask" "use_andmask";
    flag "--no-mpi-abort" "no_mpi_abort";
    flag "--debug" "debug" ]%string.

(* ---------- the command of wrap-redrock, 321-335 ---------- *)
Definition wrap_cmd (d : datatype) (spec rr details : string) (nminima : nat) (mp : option nat) (arch : option string) : string :=
  ((match d with DESI => "rrdesi " ++ spec | BOSS => "rrboss --spplate " ++ spec end)
   ++ " --nminima " ++ dec nminima ++ " --outfile " ++ rr ++ " --details " ++ details
   ++ (match mp with Some k => " --mp " ++ dec k | None => "" end)
   ++ (match arch with Some a => " --archetypes " ++ a | None => "" end))%string.
(* str.split() : the words between blanks (353) *)
Fixpoint words_go (s cur : string) : list string :=
  let flush := if String.eqb cur "" then [] else [cur] in
  match s with
  | EmptyString => flush
  | String a r => if is_space a then flush ++ words_go r "" else words_go r (cur ++ String a "")%string
  end.
Definition words (s : string) : list string := words_go s "".
(* the exit code of the command up to the reading of its options: None when the options are accepted and the program goes on *)
Definition options_exit (float_ok : string -> bool) (d : datatype) (cmd : string) : option nat :=
  match parse_args float_ok (match d with DESI => rrdesi_parser | BOSS => rrboss_parser end) (tl (words cmd)) with Exits c => Some c | Settings _ => None end.

(* ---------- settings of rrdesi ---------- *)
(* 821-827 *)
Definition nminima_of (nminima : option Z) (archetypes : bool) : Z := match nminima with Some n => n | None => if archetypes then 9 else 3 end%Z.
(* 1020-1057: (per camera, degree, prior) *)
Definition legendre_of (archetypes no_legendre : bool) (ncamera : nat) (percamera : option string) (degree : Z) (prior : Q) : bool * Z * option Q :=
  if no_legendre || negb archetypes then (false, 0%Z, None)
  else (if 1 <? ncamera then match percamera with None => true | Some s => String.eqb s "True" end else false,
        degree,
        if Qle_bool prior 0 then None else Some prior).

(* ---------- MPI ranks that go on, 797-815 ---------- *)
(* rank r of size; Some (size', rank') of the communicator used from here, None when the rank returns *)
Definition trim (gpu : bool) (max_gpuprocs : option Z) (size r : nat) : option (nat * nat) :=
  match max_gpuprocs with
  | Some m =>
      if gpu && Z.ltb m (Z.of_nat size) then
        if Z.ltb (Z.of_nat r) m
        then Some (length (filter (fun k => Z.ltb (Z.of_nat k) m) (seq 0 size)), length (filter (fun k => Z.ltb (Z.of_nat k) m) (seq 0 r)))
        else None
      else Some (size, r)
  | None => Some (size, r)
  end.

(* ---------- the outputs, 1093-1237, no MPI: the files written, in order, and the error if any ---------- *)
Inductive output := ODetails | OOutfile | OModel.
Section Outputs.
Variables (details outfile model : bool)   (* options given, with a name that is not empty *)
          (ntargets : nat)                  (* targets of this run: rows of zbest *)
          (eval : exn + unit).              (* result of the evaluation of the models *)
Definition outputs : list output * option exn :=
  let o1 := if details then [ODetails] else [] in
  if outfile && (ntargets =? 0) then (o1, Some ValueError)                       (* 1183: max() of nothing *)
  else
    let o2 := o1 ++ (if outfile then [OOutfile] else []) in
    if model then
      if negb outfile then (o2, Some TypeError)                                  (* zbest is None: 1203 and targets.py 462, or 1220 when there is no target *)
      else match eval with inl e => (o2, Some e) | inr _ => (o2 ++ [OModel], None) end
    else (o2, None).
End Outputs.
(* rrboss, boss.py 481-513: the text of --archetypes is given to zfind, which uses it as a dictionary (zfind.py 261-262) *)
Definition boss_outputs (output zbest archetypes : bool) : list Model_Cli.output * option exn :=
  if archetypes then ([], Some AttributeError)
  else ((if output then [ODetails] else []) ++ (if zbest then [OOutfile] else []), None).
