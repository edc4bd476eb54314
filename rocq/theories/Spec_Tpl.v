(* What a template is supposed to be, for the templates module. *)
From Verif Require Import Prelude Model_Zscan Model_IO Model_Tpl.
Require Import Reals.
Local Open Scope R_scope.

(* IGM model of template files written before the RRIGM keyword: type, version, model *)
Inductive old_igm : string -> string -> string -> Prop :=
| igm_star v : old_igm "STAR" v "None"
| igm_galaxy : old_igm "GALAXY" "2.6" "Calura12"
| igm_qso01 : old_igm "QSO" "0.1" "Calura12"
| igm_qso10 : old_igm "QSO" "1.0" "Calura12"
| igm_qso11 : old_igm "QSO" "1.1" "Kamble20".

(* x comes before the end when walking in the direction of the step *)
Definition before (step x fin : R) : Prop := (0 < step /\ x < fin) \/ (step < 0 /\ fin < x).
(* l is the grid from zmin to zmax (not reached) with equal steps dz in log10(1+z): point i exists
   exactly as long as it has not reached zmax *)
Definition log_grid (zmin zmax dz : R) (l : list R) : Prop :=
  (forall i, (i < length l)%nat <-> before dz ((1 + zmin) * Rpower 10 (INR i * dz)) (1 + zmax)) /\
  (forall i, (i < length l)%nat -> 1 + nth i l 0 = (1 + zmin) * Rpower 10 (INR i * dz)).
(* the same with equal steps in z *)
Definition lin_grid (zmin zmax dz : R) (l : list R) : Prop :=
  (forall i, (i < length l)%nat <-> before dz (zmin + INR i * dz) zmax) /\
  (forall i, (i < length l)%nat -> nth i l 0 = zmin + INR i * dz).
(* the grid of a type: equal steps in log(1+z) for galaxies and quasars, in z for stars *)
Definition grid_of_type (rrtype : string) (zmin zmax dz : R) (l : list R) : Prop :=
  dz <> 0 /\
  ((rrtype = "STAR"%string /\ lin_grid zmin zmax dz l) \/
   ((rrtype = "GALAXY" \/ rrtype = "QSO")%string /\ -1 < zmin /\ -1 < zmax /\ log_grid zmin zmax dz l)).
(* ranges used when no option is given *)
Definition default_range (rrtype : string) (zmin zmax dz : R) : Prop :=
  (rrtype = "GALAXY"%string /\ zmin = - (5/1000) /\ zmax = 17/10 /\ dz = 3/10000) \/
  (rrtype = "QSO"%string /\ zmin = 5/100 /\ zmax = 6 /\ dz = 5/10000) \/
  (rrtype = "STAR"%string /\ zmin = - (2/1000) /\ zmax = 201/100000 /\ dz = 4/100000).
(* the option that concerns a type *)
Definition option_for (a : zscan_args) (rrtype : string) : option string :=
  if String.eqb rrtype "GALAXY" then zs_galaxy a else if String.eqb rrtype "QSO" then zs_qso a else if String.eqb rrtype "STAR" then zs_star a else None.
(* "zmin,zmax,dz", each part a number *)
Definition no_comma (x : string) : Prop := forall u v, x <> (u ++ "," ++ v)%string.
Definition range_text (tofloat : string -> option R) (s : string) (zmin zmax dz : R) : Prop :=
  exists a b c, s = (a ++ "," ++ b ++ "," ++ c)%string /\ no_comma a /\ no_comma b /\ no_comma c /\
    tofloat a = Some zmin /\ tofloat b = Some zmax /\ tofloat c = Some dz.
(* the range a file without redshifts is scanned on *)
Definition asked_range (tofloat : string -> option R) (a : zscan_args) (rrtype : string) (zmin zmax dz : R) : Prop :=
  match option_for a rrtype with
  | Some s => range_text tofloat s zmin zmax dz
  | None => default_range rrtype zmin zmax dz
  end.
(* wavelengths of a file: linear, or equal steps in log10 when LOGLAM is set *)
Definition file_wave (f : tfile) (w : list R) : Prop :=
  length w = h_naxis f /\
  forall i, (i < h_naxis f)%nat -> nth i w 0 = let x := h_crval f + h_cdelt f * INR i in if h_loglam f then Rpower 10 x else x.

(* t is what the file f says *)
Record template_of (tofloat : string -> option R) (a : zscan_args) (f : tfile) (t : tmpl) : Prop := {
  to_type : exists raw, h_rrtype f = Some raw /\ tp_type t = upper (strip raw);
  to_sub : (h_subtype f = None /\ tp_sub t = ""%string) \/ (exists s, h_subtype f = Some s /\ tp_sub t = upper (strip s));
  to_method : (h_method f = None /\ tp_method t = "PCA"%string) \/ (exists m, h_method f = Some m /\ tp_method t = upper m);
  to_method_ok : (tp_method t = "PCA" \/ tp_method t = "NMF")%string;
  to_version : (h_version f = None /\ tp_version t = "unknown"%string) \/ h_version f = Some (tp_version t);
  to_igm : h_igm f = Some (tp_igm t) \/ (h_igm f = None /\ old_igm (tp_type t) (tp_version t) (tp_igm t));
  to_wave : file_wave f (tp_wave t) /\ (0 < h_naxis f)%nat;
  to_flux : tp_flux t = h_data f;
  to_z : tp_z t <> [] /\
         (h_redshifts f = Some (tp_z t) \/
          (h_redshifts f = None /\ exists zmin zmax dz, asked_range tofloat a (tp_type t) zmin zmax dz /\ grid_of_type (tp_type t) zmin zmax dz (tp_z t))) }.

(* ---------- which files are used ---------- *)
(* the files named by the lines of a list; blank lines, comments and one-letter lines name none *)
Definition no_name (line : string) : Prop := (String.length (strip line) < 2)%nat \/ String.prefix "#" (strip line) = true.
Definition named (dir line : string) : string :=
  if String.prefix "/" (strip line) then first_word (strip line) else (dir ++ "/" ++ first_word (strip line))%string.
Inductive listed (dir : string) (ex : string -> bool) : list string -> list string -> Prop :=
| li_nil : listed dir ex [] []
| li_skip l ls out : no_name l -> listed dir ex ls out -> listed dir ex (l :: ls) out
| li_file l ls out : ~ no_name l -> ex (named dir l) = true -> listed dir ex ls out -> listed dir ex (l :: ls) (named dir l :: out).
Definition suffix (suf s : string) : Prop := exists p, s = (p ++ suf)%string.
Definition fits_name (s : string) : Prop := suffix ".fits" s \/ suffix ".fits.gz" s \/ suffix ".fits.fz" s.
(* what a path given as a text means *)
Inductive resolves (fs : filesys) (s : string) : list string -> Prop :=
| re_dir_list out : fs_exists fs s = true -> fs_isdir fs s = true -> fs_exists fs (s ++ "/templates-default.txt")%string = true ->
    listed s (fs_exists fs) (fs_lines fs (s ++ "/templates-default.txt")%string) out -> resolves fs s out
| re_dir_glob : fs_exists fs s = true -> fs_isdir fs s = true -> fs_exists fs (s ++ "/templates-default.txt")%string = false ->
    resolves fs s (fs_glob fs s)
| re_text out : fs_exists fs s = true -> fs_isdir fs s = false -> suffix ".txt" s ->
    listed (fs_absdir fs s) (fs_exists fs) (fs_lines fs s) out -> resolves fs s out
| re_file : fs_exists fs s = true -> fs_isdir fs s = false -> fits_name s -> resolves fs s [s].
(* the last template with its type and subtype *)
Definition last_with_key (l : list tmpl) (t : tmpl) : Prop :=
  exists l1 l2, l = l1 ++ t :: l2 /\ forall t', In t' l2 -> (tp_type t', tp_sub t') <> (tp_type t, tp_sub t).
