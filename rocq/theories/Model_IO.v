(* Model of names, files and headers: templates.py (fulltype, header2templatefiles,
   find_templates), results.py, boss.py and desi.py writers.
   Characters are bytes (latin-1 code points). *)
From Verif Require Import Prelude Model_Dist Model_Zscan.

(* ---------- str methods used ---------- *)
(* str.isspace for code points below 256 *)
Definition is_space (c : ascii) : bool :=
  let n := nat_of_ascii c in
  ((9 <=? n) && (n <=? 13)) || ((28 <=? n) && (n <=? 32)) || (n =? 133) || (n =? 160).
Fixpoint lstrip (s : string) : string :=
  match s with EmptyString => EmptyString | String c r => if is_space c then lstrip r else s end.
Fixpoint rstrip (s : string) : string :=
  match s with
  | EmptyString => EmptyString
  | String c r => match rstrip r with
                  | EmptyString => if is_space c then EmptyString else String c EmptyString
                  | r' => String c r'
                  end
  end.
Definition strip (s : string) : string := rstrip (lstrip s).
(* sep in s *)
Fixpoint contains (sep s : string) : bool :=
  String.prefix sep s || match s with EmptyString => false | String _ r => contains sep r end.
(* s.split(sep), sep not empty: split at the leftmost occurrence, then go on after
   it.  [skip] counts the characters of sep still to drop. *)
Fixpoint split_go (sep s : string) (skip : nat) (cur : string) : list string :=
  match s with
  | EmptyString => [cur]
  | String c r =>
      match skip with
      | S k => split_go sep r k cur
      | O => if String.prefix sep s then cur :: split_go sep r (String.length sep - 1) EmptyString
             else split_go sep r O (cur ++ String c EmptyString)%string
      end
  end.
Definition split (sep s : string) : list string := split_go sep s O EmptyString.

Definition sep3 : string := ":::".
(* templates.py 274-284: `spectype, subtype = fulltype.split(':::')` needs exactly two parts *)
Definition parse_fulltype (fulltype : string) : res (string * string) :=
  let f := strip fulltype in
  if contains sep3 f then
    match split sep3 f with [a; b] => Ok (a, b) | _ => Err ValueError end
  else Ok (f, EmptyString).
(* templates.py 286-298; subtype None or a string *)
Definition make_fulltype (spectype : string) (subtype : option string) : string :=
  let a := strip spectype in
  match option_map strip subtype with
  | Some (String c r) => (a ++ sep3 ++ String c r)%string
  | _ => a
  end.

(* ---------- results.py ---------- *)
(* astype(np.int8): two's complement wrap *)
Definition int8 (z : Z) : Z := ((z + 128) mod 256 - 128)%Z.

(* zscan[targetid][fulltype] *)
Record scan := { sc_z : list Q; sc_chi2 : list Q; sc_pen : list Q; sc_coeff : list (list Q) }.
Definition zscan_t := dict (list (string * scan)).
(* one row of zfit: the columns read_zscan and write_zscan look at, and the others *)
Record frow (P : Type) := { f_tid : Z; f_znum : Z; f_type : string; f_sub : string; f_pay : P }.
Arguments f_tid {P}. Arguments f_znum {P}. Arguments f_type {P}. Arguments f_sub {P}. Arguments f_pay {P}. Arguments Build_frow {P}.
(* datasets of /zscan/{spectype} *)
Record h5grp := { g_z : list Q; g_chi2 : list (list Q); g_pen : list (list Q); g_coeff : list (list (list Q)) }.
(* the HDF5 file.  Group and dataset names contain no '/' of their own; keys() are listed in
   alphabetical order (h5py default), so the list of groups is kept as written and sorted on reading *)
Record h5 (P : Type) := { h_ids : list Z; h_zbest : list (frow P); h_scan : list (string * h5grp); h_fit : dict (list (frow P)) }.
Arguments h_ids {P}. Arguments h_zbest {P}. Arguments h_scan {P}. Arguments h_fit {P}. Arguments Build_h5 {P}.

Section Results.
  (* float64 -> float32 and the same for the payload columns (zerr, chi2, zz, zzchi2, coeff,
     deltachi2 as float32, zwarn, npixels as int32, ncoeff as int8): arbitrary functions *)
  Context {P : Type} (f32 : Q -> Q) (cast : P -> P).
  (* 47-62 *)
  Definition cast_row (r : frow P) : frow P :=
    {| f_tid := f_tid r; f_znum := int8 (f_znum r); f_type := f_type r; f_sub := f_sub r; f_pay := cast (f_pay r) |}.
  (* np.vstack of 1-d arrays / of (1,n,m) arrays: ValueError unless all shapes agree *)
  Definition vstack1 (l : list (list Q)) : res (list (list Q)) :=
    match l with
    | [] => Err ValueError
    | a :: r => if forallb (fun b => length b =? length a) r then Ok l else Err ValueError
    end.
  Definition same_shape (a b : list (list Q)) : bool :=
    (length a =? length b) && forallb (fun p => length (fst p) =? length (snd p)) (combine a b).
  Definition vstack2 (l : list (list (list Q))) : res (list (list (list Q))) :=
    match l with
    | [] => Err ValueError
    | a :: r => if forallb (same_shape a) r then Ok l else Err ValueError
    end.
  (* zscan[t][spectype] *)
  Definition entry (zs : zscan_t) (t : Z) (ft : string) : res scan :=
    match dget zs t with
    | None => Err KeyError
    | Some d => match sget d ft with None => Err KeyError | Some s => Ok s end
    end.
  (* 77-90, one spectype; redshifts of the first target *)
  Definition write_group (zs : zscan_t) (t0 : Z) (ids : list Z) (ft : string) : res (string * h5grp) :=
    do ss <- mapM (fun t => entry zs t ft) ids;
    do c <- vstack1 (map (fun s => map f32 (sc_chi2 s)) ss);
    do p <- vstack1 (map (fun s => map f32 (sc_pen s)) ss);
    do k <- vstack2 (map (fun s => map (map f32) (sc_coeff s)) ss);
    do s0 <- entry zs t0 ft;
    Ok (ft, {| g_z := sc_z s0; g_chi2 := c; g_pen := p; g_coeff := k |}).
  (* 92-94: a second dataset with the same name raises ValueError *)
  Fixpoint write_fits (zf : list (frow P)) (ids : list Z) (acc : dict (list (frow P))) : res (dict (list (frow P))) :=
    match ids with
    | [] => Ok acc
    | t :: r => match dget acc t with
                | Some _ => Err ValueError
                | None => write_fits zf r (acc ++ [(t, filter (fun x => f_tid x =? t)%Z zf)])
                end
    end.
  (* 18-97, the content of the file *)
  Definition write_zscan (zs : zscan_t) (zfit : list (frow P)) : res (h5 P) :=
    let zf := map cast_row zfit in
    let zbest := filter (fun r => (f_znum r =? 0)%Z) zf in
    let ids := map f_tid zbest in
    match ids with
    | [] => Err IndexError
    | t0 :: _ =>
        match dget zs t0 with
        | None => Err KeyError
        | Some d0 =>
            do gs <- mapM (write_group zs t0 ids) (map fst d0);
            do fs <- write_fits zf ids [];
            Ok {| h_ids := ids; h_zbest := zbest; h_scan := gs; h_fit := fs |}
        end
    end.

  (* np.where(np.isin(targetids, select))[0] with the ids, 131-134 *)
  Definition selected (ids : list Z) (sel : option (list Z)) : list (nat * Z) :=
    match sel with
    | None => enum ids
    | Some l => filter (fun p => existsb (Z.eqb (snd p)) l) (enum ids)
    end.
  (* 136-153.  zchi2[i] of an array with too few rows: IndexError (not with files from write_zscan) *)
  Definition get_scan (g : h5grp) (i : nat) : res scan :=
    match nth_error (g_chi2 g) i, nth_error (g_pen g) i, nth_error (g_coeff g) i with
    | Some c, Some p, Some k => Ok {| sc_z := g_z g; sc_chi2 := c; sc_pen := p; sc_coeff := k |}
    | _, _, _ => Err IndexError
    end.
  Definition by_name {V} (l : list (string * V)) : list (string * V) := isort (fun a b => str_leb (fst a) (fst b)) l.
  Definition read_scans (h : h5 P) (sel : option (list Z)) : res zscan_t :=
    do _ <- mapM (fun g => parse_fulltype (fst g)) (by_name (h_scan h));
    do es <- mapM (fun p => do d <- mapM (fun g => do s <- get_scan (snd g) (fst p); Ok (fst g, s)) (by_name (h_scan h));
                            Ok (snd p, d)) (selected (h_ids h) sel);
    Ok (fold_left (fun d e => dset d (fst e) (snd e)) es []).
  (* read_zfit, 178-209; fx[...] of a missing target: KeyError; hstack of nothing: ValueError *)
  Definition read_zfit (h : h5 P) (sel : option (list Z)) : res (list (frow P)) :=
    do ts <- mapM (fun t => match dget (h_fit h) t with Some x => Ok x | None => Err KeyError end)
               (match sel with None => h_ids h | Some l => l end);
    match ts with [] => Err ValueError | _ => Ok (concat ts) end.
  (* group_by (targetid, spectype, subtype): the distinct keys in increasing order; rows keep their order *)
  Definition fkey (r : frow P) : Z * string * string := (f_tid r, f_type r, f_sub r).
  Definition fkey_eqb (a b : Z * string * string) : bool :=
    let '(t, s, u) := a in let '(t', s', u') := b in (t =? t')%Z && String.eqb s s' && String.eqb u u'.
  Definition fkey_leb (a b : Z * string * string) : bool :=
    let '(t, s, u) := a in let '(t', s', u') := b in
    if (t <? t')%Z then true else if (t' <? t)%Z then false else
    if String.eqb s s' then str_leb u u' else str_leb s s'.
  Fixpoint dedup_keys (l : list (Z * string * string)) : list (Z * string * string) :=
    match l with [] => [] | k :: r => if existsb (fkey_eqb k) r then dedup_keys r else k :: dedup_keys r end.
  Definition groups (zf : list (frow P)) : list (Z * string * string) := isort fkey_leb (dedup_keys (map fkey zf)).
  (* 169-174: zscan[targetid][fulltype]['zfit'] = rows *)
  Definition zfit_t := dict (list (string * list (frow P))).
  Definition add_group (zs : zscan_t) (zf : list (frow P)) (acc : res zfit_t) (k : Z * string * string) : res zfit_t :=
    do d <- acc;
    let '(t, s, u) := k in
    let ft := make_fulltype s (Some u) in
    do _ <- entry zs t ft;
    Ok (dset d t (sset (match dget d t with Some x => x | None => [] end) ft (filter (fun r => fkey_eqb (fkey r) k) zf))).
  Definition read_zscan (h : h5 P) (sel : option (list Z)) : res (zscan_t * zfit_t * list (frow P)) :=
    do zs <- read_scans h sel;
    do zf <- read_zfit h sel;
    do fits <- fold_left (add_group zs zf) (groups zf) (Ok []);
    Ok (zs, fits, zf).
  (* 212-241 *)
  Definition read_zscan_redrock (h : h5 P) : res zscan_t :=
    do es <- mapM (fun p => do d <- mapM (fun g => do s <- get_scan (snd g) (fst p); Ok (fst g, s)) (by_name (h_scan h));
                            Ok (snd p, d)) (enum (h_ids h));
    Ok (fold_left (fun d e => dset d (fst e) (snd e)) es []).
End Results.

(* ---------- the file system, as seen by the writers ---------- *)
(* A path holds nothing or a sequence of blocks.  os.rename within a directory is atomic
   (POSIX); a crash loses no completed call (no page-cache model). *)
Definition fs (B : Type) := string -> option (list B).
Inductive fop (B : Type) := Remove (p : string) | Create (p : string) | Append (p : string) (b : B) | Rename (p q : string).
Arguments Remove {B}. Arguments Create {B}. Arguments Append {B}. Arguments Rename {B}.
Definition fset {B} (f : fs B) (p : string) (v : option (list B)) : fs B := fun q => if String.eqb p q then v else f q.
Definition fstep {B} (f : fs B) (o : fop B) : fs B :=
  match o with
  | Remove p => fset f p None
  | Create p => fset f p (Some [])                                   (* mode 'w' / overwrite=True *)
  | Append p b => fset f p (option_map (fun l => l ++ [b]) (f p))
  | Rename p q => match f p with Some c => fset (fset f q (Some c)) p None | None => f end
  end.
Definition frun {B} (f : fs B) (l : list (fop B)) : fs B := fold_left fstep l f.
Definition tmp_of (p : string) : string := (p ++ ".tmp")%string.
(* results.py 38-97: the calls that touch the file system, in order *)
Definition write_zscan_ops {B} (f : fs B) (file : string) (clobber : bool) (blocks : list B) : list (fop B) :=
  (if clobber && match f file with Some _ => true | None => false end then [Remove file] else []) ++
  Create (tmp_of file) :: map (Append (tmp_of file)) blocks ++ [Rename (tmp_of file) file].
(* boss.py 74-77, desi.py 144-151; desi.py 197-199 with another temporary name *)
Definition write_fits_ops {B} (file tmp : string) (blocks : list B) : list (fop B) :=
  Create tmp :: map (Append tmp) blocks ++ [Rename tmp file].

(* ---------- boss.py 41-49 ---------- *)
Definition platemjdfiber2targetid (plate mjd fiber : Z) : Z := (plate * 1000000000 + mjd * 10000 + fiber)%Z.
Definition targetid2platemjdfiber (t : Z) : Z * Z * Z := (t / (10000 * 100000), (t / 10000) mod 100000, t mod 10000)%Z.

(* ---------- headers ---------- *)
(* str(i): decimal digits *)
Definition digit (n : nat) : ascii := ascii_of_nat (48 + n).
Fixpoint dec_go (fuel n : nat) (acc : string) : string :=
  match fuel with
  | O => acc
  | S f => let acc' := String (digit (n mod 10)) acc in if n <? 10 then acc' else dec_go f (n / 10) acc'
  end.
Definition dec (n : nat) : string := dec_go (S n) n EmptyString.
(* f'{i:02d}', str(i).zfill(2) *)
Definition fmt02 (n : nat) : string := if n <? 10 then String "0" (dec n) else dec n.
Record tmpl := { t_full : string; t_version : string; t_file : string }.
(* os.path.basename: what follows the last '/' *)
Fixpoint basename_go (s cur : string) : string :=
  match s with
  | EmptyString => cur
  | String c r => if Ascii.eqb c "/" then basename_go r EmptyString else basename_go r (cur ++ String c EmptyString)%string
  end.
Definition basename (s : string) : string := basename_go s EmptyString.
(* os.path.join(d, f) *)
Definition ends_slash (s : string) : bool := match s with EmptyString => false | _ => String.eqb (substring (String.length s - 1) 1 s) "/" end.
Definition path_join (d f : string) : string :=
  match f with
  | String "/" _ => f
  | _ => match d with EmptyString => f | _ => if ends_slash d then (d ++ f)%string else (d ++ "/" ++ f)%string end
  end.
Definition header := list (string * string).
Definition hset (h : header) (kv : string * string) : header := sset h (fst kv) (snd kv).
(* desi.py 66-69 *)
Definition tmpl_cards (i : nat) (t : tmpl) : list (string * string) :=
  [("TEMNAM" ++ fmt02 i, t_full t); ("TEMVER" ++ fmt02 i, t_version t); ("TEMFIL" ++ fmt02 i, basename (t_file t))]%string.
(* desi.py 63-91.  [arch]: cards ARCNAMnn, ARCVERnn, ARCFILnn (70-74); [deps]: cards DEPNAMnn, DEPVERnn
   (76-84); [spec]: the listed keys of the input header (86-91) *)
Definition get_header (version : string) (ts : list tmpl) (arch deps spec : list (string * string)) : header :=
  fold_left hset (spec) (fold_left hset deps (fold_left hset arch
   (fold_left hset (concat (map (fun p => tmpl_cards (fst p) (snd p)) (enum ts)))
     [("LONGSTRN", "OGIP 1.0"); ("RRVER", version)]%string))).
(* boss.py 60-68 *)
Definition boss_header (version : string) (ts : list tmpl) (arch : list (string * string)) : header :=
  fold_left hset arch (fold_left hset (concat (map (fun p => [("TEMNAM" ++ fmt02 (fst p), t_full (snd p)); ("TEMVER" ++ fmt02 (fst p), t_version (snd p))]%string) (enum ts)))
     [("RRVER", version)]%string).
(* templates.py 376-417 *)
Definition header2templatefiles (h : header) (dir : string) : res (list string) :=
  do names <- mapM (fun i =>
     match sget h ("TEMFIL" ++ fmt02 i)%string with
     | Some f => Ok [f]
     | None => match sget h ("TEMNAM" ++ fmt02 i)%string, sget h ("TEMVER" ++ fmt02 i)%string with
               | Some nam, Some ver =>
                   let v := strip ver in
                   do st <- parse_fulltype nam;
                   do v' <- (if String.eqb v "unknown" then if String.eqb (fst st) "STAR" then Ok "0.1"%string else Err ValueError else Ok v);
                   let sub := if String.eqb (snd st) EmptyString then "None"%string else snd st in
                   Ok [("rrtemplate-" ++ fst st ++ "-" ++ sub ++ "-v" ++ v' ++ ".fits")%string]
               | _, _ => Ok []
               end
     end) (seq 0 100);
  Ok (map (path_join dir) (concat names)).

(* desi.py 136-142: cards of a saved header that the new HDU does not have yet are appended,
   Header.extend(update=False, unique=True); [saved] is self.secondary_headers, desi.py 302-330 *)
Definition extend_new (h : header) (cards : list (string * string)) : header :=
  fold_left (fun h kv => match sget h (fst kv) with Some _ => h | None => h ++ [kv] end) cards h.
Definition saved_headers (fibermap : header) (exp_fibermap : option header) (scores : header) : list (string * header) :=
  [("FIBERMAP", fibermap)]%string ++ match exp_fibermap with Some e => [("EXP_FIBERMAP", e)]%string | None => [] end ++ [("SCORES", scores)]%string.
Definition out_header (saved : list (string * header)) (name : string) (own : header) : header :=
  match sget saved name with Some c => extend_new own c | None => own end.

(* ---------- find_templates, templates.py 352-368: the list in a text file ---------- *)
(* str.split() without arguments, first word of a stripped non-empty line *)
Fixpoint first_word (s : string) : string :=
  match s with EmptyString => EmptyString | String c r => if is_space c then EmptyString else String c (first_word r) end.
Definition template_lines (dir : string) (exists_ : string -> bool) (lines : list string) : res (list string) :=
  do l <- mapM (fun line0 =>
     let line := strip line0 in
     if (String.length line <? 2) || String.prefix "#" line then Ok []
     else let f := first_word line in
          let f' := if String.prefix "/" line then f else (dir ++ "/" ++ f)%string in
          if exists_ f' then Ok [f'] else Err ValueError) lines;
  Ok (concat l).
