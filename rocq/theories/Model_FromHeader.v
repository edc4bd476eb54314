(* templates.load_templates_from_header (templates.py 420-433) on the header of a redshift file (external/desi.py 47-91).
   Simplifications: those of Model_IO.v (headers) and Model_Tpl.v (files, real numbers); template_dir is given (templates.py 412-413 put get_template_dir() otherwise). *)
From Verif Require Import Prelude Model_IO Model_Tpl.
Definition load_templates_from_header (tofloat : string -> option Rdefinitions.R) (fs : filesys) (read : string -> tfile) (h : header) (dir : string) : res (list Model_Tpl.tmpl) :=
  do names <- header2templatefiles h dir;                                                                    (* 432 *)
  load_templates tofloat fs read {| zs_galaxy := None; zs_qso := None; zs_star := None |} (TList names).     (* 433 *)
