(* templates.eval_model (templates.py 781-832) on rows of the table of a run, with the templates of the run as load_templates(..., asdict=True) gives them
   (templates.py 461-468; the last template of a type and subtype).
   Simplifications: those of mod_eval_model (Model_Targets2.v) and Model_RunDesi.v; a type without template raises KeyError before any row is evaluated (in the code when
   its row comes: the call raises an exception in both cases); exact rationals. *)
From Verif Require Import Prelude NumX Model_Rebin Model_Dist Model_Zscan Model_Targets2 Model_Zfind Model_Run Model_Models.
Open Scope nat_scope.
(* 826-828 *)
Definition with_template (ps : list tmpl) (r : frow) : res fitrow :=
  match template_of ps (f_type r) (f_sub r) with
  | Some p => Ok {| fr_wave := t_wave (p_core p); fr_flux := t_flux (p_core p); fr_coeff := Model_Zfind.f_coeff r; fr_z := Model_Zfind.f_z r |}
  | None => Err KeyError
  end.
Definition eval_table (ps : list tmpl) (rows : list frow) (wave : list Q) (R : option (list csr)) : res (list (list Q)) :=
  do data <- mapM (with_template ps) rows; mod_eval_model data wave R.
