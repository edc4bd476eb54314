(* Model of templates.py 29-179 (Template), 300-373 (find_templates), 435-475 (load_templates), 709-778
   (load_dist_templates without the rebinning).
   Simplifications: real numbers instead of float64; FITS reading is not modelled: the constructor
   receives the header cards and the arrays of the file; the file system is a record of what
   os.path.exists, os.path.isdir, sorted(glob(..)) and readlines answer; messages are not modelled. *)
From Verif Require Import Prelude Model_Zscan Model_IO.
Require Import Reals.
Local Open Scope R_scope.

(* header cards (None: not in the header) and data of a template file.
   h_loglam: 'LOGLAM' in hdr and hdr['LOGLAM'] != 0; h_redshifts: the REDSHIFTS HDU *)
Record tfile := { h_rrtype : option string; h_subtype : option string; h_method : option string; h_igm : option string;
  h_version : option string; h_crval : R; h_cdelt : R; h_naxis : nat; h_loglam : bool;
  h_data : list (list R); h_redshifts : option (list R) }.
Record tmpl := { tp_type : string; tp_sub : string; tp_method : string; tp_igm : string; tp_version : string;
  tp_wave : list R; tp_flux : list (list R); tp_z : list R }.

(* 64-67 *)
Definition tpl_wave (f : tfile) : list R :=
  let w := map (fun i => h_crval f + h_cdelt f * INR i) (seq 0 (h_naxis f)) in
  if h_loglam f then map (Rpower 10) w else w.

(* np.arange(start, stop, step): ceil((stop-start)/step) points; a zero step raises [e]: ValueError
   (size) when the bounds are numpy scalars, ZeroDivisionError when they are Python floats *)
Definition ceil (x : R) : Z := (- Int_part (- x))%Z.
Definition arange (e : exn) (start stop step : R) : res (list R) :=
  if Req_EM_T step 0 then Err e
  else Ok (map (fun i => start + INR i * step) (seq 0 (Z.to_nat (ceil ((stop - start) / step))))).
(* np.log10 of a number that is not positive is nan or -inf, for which arange raises *)
Definition log10 (x : R) : R := ln x / ln 10.
(* 94, 96, 106, 108 *)
Definition log_range (zmin zmax dz : R) : res (list R) :=
  if Rlt_dec 0 (1 + zmin) then if Rlt_dec 0 (1 + zmax) then
    do l <- arange ValueError (log10 (1 + zmin)) (log10 (1 + zmax)) dz; Ok (map (fun x => Rpower 10 x - 1) l)
  else Err ValueError else Err ValueError.

Section Load.
(* float(s): the number, or None when it raises ValueError *)
Variable tofloat : string -> option R.
(* zmin, zmax, dz = s.split(',') *)
Definition parse_range (s : string) : res (R * R * R) :=
  match Model_IO.split ","%string s with
  | [a; b; c] => match tofloat a, tofloat b, tofloat c with Some x, Some y, Some d => Ok (x, y, d) | _, _, _ => Err ValueError end
  | _ => Err ValueError
  end.
(* the three options of the constructor *)
Record zscan_args := { zs_galaxy : option string; zs_qso : option string; zs_star : option string }.
(* 90-111 *)
Definition old_style_redshifts (a : zscan_args) (rrtype : string) : res (list R) :=
  if String.eqb rrtype "GALAXY" then
    match zs_galaxy a with
    | Some s => do r <- parse_range s; let '(x, y, d) := r in log_range x y d
    | None => log_range (- (5 / 1000)) (17 / 10) (3 / 10000)
    end
  else if String.eqb rrtype "STAR" then
    match zs_star a with
    | Some s => do r <- parse_range s; let '(x, y, d) := r in arange ZeroDivisionError x y d
    | None => arange ZeroDivisionError (- (2 / 1000)) (201 / 100000) (4 / 100000)
    end
  else if String.eqb rrtype "QSO" then
    match zs_qso a with
    | Some s => do r <- parse_range s; let '(x, y, d) := r in log_range x y d
    | None => log_range (5 / 100) 6 (5 / 10000)
    end
  else Err ValueError.
(* 128-144 *)
Definition igm_of (f : tfile) (rrtype version : string) : res string :=
  match h_igm f with
  | Some m => Ok m
  | None =>
      if String.eqb rrtype "STAR" then Ok "None"%string
      else if String.eqb rrtype "GALAXY" && String.eqb version "2.6" then Ok "Calura12"%string
      else if String.eqb rrtype "QSO" && (String.eqb version "0.1" || String.eqb version "1.0") then Ok "Calura12"%string
      else if String.eqb rrtype "QSO" && String.eqb version "1.1" then Ok "Kamble20"%string
      else Err ValueError
  end.
Definition opt {A} (o : option A) (d : A) : A := match o with Some x => x | None => d end.
(* 155-167: common end of the constructor *)
Definition finish_init (t : tmpl) : res tmpl :=
  match tp_wave t with
  | [] => Err IndexError                                       (* self.wave[0] *)
  | _ => if String.eqb (tp_method t) "PCA" || String.eqb (tp_method t) "NMF" then
           match tp_z t with [] => Err IndexError | _ => Ok t end   (* 177-183: str(self) uses redshifts[0] *)
         else Err ValueError
  end.
(* Template(filename, zscan_...), 46-167 *)
Definition load_file (a : zscan_args) (f : tfile) : res tmpl :=
  match h_rrtype f with
  | None => Err KeyError
  | Some raw =>
      let rrtype := upper (strip raw) in
      let version := opt (h_version f) "unknown"%string in
      do zs <- match h_redshifts f with Some zs => Ok zs | None => old_style_redshifts a rrtype end;
      match zs with
      | [] => Err IndexError                                   (* 112, 117: self._redshifts[0] *)
      | _ =>
        do igm <- igm_of f rrtype version;
        finish_init {| tp_type := rrtype; tp_sub := match h_subtype f with Some s => upper (strip s) | None => EmptyString end;
                       tp_method := match h_method f with Some m => upper m | None => "PCA"%string end;
                       tp_igm := igm; tp_version := version; tp_wave := tpl_wave f; tp_flux := h_data f; tp_z := zs |}
      end
  end.
(* Template(spectype=..., ...), 145-167: nothing is stripped or put in upper case *)
Definition template_direct (t : tmpl) : res tmpl := finish_init t.

(* ---------- find_templates, templates.py 300-373 ---------- *)
(* what the operating system answers; os.path.dirname(os.path.abspath(p)) *)
Record filesys := { fs_exists : string -> bool; fs_isdir : string -> bool; fs_lines : string -> list string;
  fs_glob : string -> list string; fs_absdir : string -> string; fs_env : option string; fs_pkg : string }.
(* the argument: None, a list (or tuple, set, array), a str or a pathlib.Path *)
Inductive tpath := TNone | TList (l : list string) | TStr (s : string) | TPath (s : string).
Fixpoint ends_with (suf s : string) : bool :=
  String.eqb suf s || match s with EmptyString => false | String _ r => ends_with suf r end.
Definition get_template_dir (fs : filesys) : string := opt (fs_env fs) (fs_pkg fs).     (* 300-308 *)
(* 350-371 *)
Definition list_or_glob (fs : filesys) (listfile dir : string) : res (list string) :=
  if fs_exists fs listfile then template_lines dir (fs_exists fs) (fs_lines fs listfile) else Ok (fs_glob fs dir).
Definition find_templates (fs : filesys) (p : tpath) : res (list string) :=
  let dir_case s := list_or_glob fs (s ++ "/templates-default.txt")%string s in
  let str_case s :=
    if negb (fs_exists fs s) then Err ValueError
    else if fs_isdir fs s then dir_case s
    else if ends_with ".txt" s then list_or_glob fs s (fs_absdir fs s)
    else if ends_with ".fits" s || ends_with ".fits.gz" s || ends_with ".fits.fz" s then Ok [s]
    else Err ValueError in
  match p with
  | TNone => str_case (get_template_dir fs)
  | TList l => Ok l
  | TStr s => str_case s
  | TPath s => if negb (fs_exists fs s) then Err ValueError
               else if fs_isdir fs s then dir_case s else Err AttributeError       (* Path has no endswith *)
  end.

(* ---------- load_templates, templates.py 435-475 ---------- *)
(* Template(filename): the file itself or the one in the template directory, 47-56 *)
Definition open_template (fs : filesys) (read : string -> tfile) (name : string) : res tfile :=
  if fs_exists fs name then Ok (read name)
  else let x := path_join (get_template_dir fs) name in if fs_exists fs x then Ok (read x) else Err OSError.
Definition load_templates (fs : filesys) (read : string -> tfile) (a : zscan_args) (p : tpath) : res (list tmpl) :=
  do files <- match p with
              | TNone | TStr _ => find_templates fs p
              | TList l => Ok l
              | TPath _ => Err TypeError                       (* a Path is not iterable *)
              end;
  mapM (fun n => do f <- open_template fs read n; load_file a f) files.
(* 468-473 *)
Definition tkey := (string * string)%type.
Definition tkey_eqb (x y : tkey) : bool := String.eqb (fst x) (fst y) && String.eqb (snd x) (snd y).
Fixpoint tset (d : list (tkey * tmpl)) (k : tkey) (v : tmpl) : list (tkey * tmpl) :=
  match d with [] => [(k, v)] | (k', v') :: r => if tkey_eqb k k' then (k', v) :: r else (k', v') :: tset r k v end.
Definition as_dict (l : list tmpl) : list (tkey * tmpl) := fold_left (fun d t => tset d (tp_type t, tp_sub t) t) l [].
(* 748-774: the templates that are distributed and scanned, in order *)
Definition dist_templates (fs : filesys) (read : string -> tfile) (a : zscan_args) (p : tpath) : res (list tmpl) :=
  do l <- load_templates fs read a p; Ok (map snd (as_dict l)).
End Load.
