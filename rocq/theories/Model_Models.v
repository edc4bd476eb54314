(* rrdesi --model: the best-fit models of all targets rendered from the table of a run without archetypes. external/desi.py 1138-1142, 1160, 1203;
   targets.py 208-234, 460-466.
   Simplifications: exact rationals (the columns COEFF and Z as the run has them; Props_Single.v says what the file does to them); one process;
   no archetypes, so FITMETHOD is never ARCH; a zero model has the number type of the others. *)
From Verif Require Import Prelude NumX Model_Fitz Model_Rebin Model_Dist Model_Zscan Model_Targets2 Model_Zfind Model_Run Model_RunDesi.
Open Scope nat_scope.
Local Notation dset := Model_Dist.dset.

(* desi.py 1138-1142: the last template of a type and subtype *)
Definition template_of (ps : list tmpl) (spectype subtype : string) : option tmpl :=
  find (fun p => String.eqb (t_rrtype (p_core p)) spectype && String.eqb (p_sub p) subtype) (rev ps).
(* targets.py 208-234 for one row of the table; the dictionary is keyed by the hash of the wavelengths *)
Definition render (ps : list tmpl) (g : targ) (row : frow) : res (dict (list Q)) :=
  if forallb (fun c => Qeq_bool c 0) (Model_Zfind.f_coeff row)                                                    (* 215 *)
  then Ok (fold_left (fun d s => dset d (q_hash s) (repeat 0%Q (length (q_wave s)))) (g_spectra g) [])           (* 217-218 *)
  else match template_of ps (f_type row) (f_sub row) with
       | None => Err KeyError                                                                                    (* 230 *)
       | Some p =>
           fold_left (fun acc s => do d <- acc;                                                                  (* 231-232 *)
             do m <- template_eval (t_wave (p_core p)) (t_flux (p_core p)) (Model_Zfind.f_coeff row) (q_wave s) (Model_Zfind.f_z row) (Some (s_R (q_spec s)));
             Ok (dset d (q_hash s) m)) (g_spectra g) (Ok [])
       end.
(* targets.py 460-466; the table of best rows is desi.py 1160 *)
Definition render_target (ps : list tmpl) (best : list frow) (g : targ) : res (dict (list Q)) :=
  do i <- bestfit_row (map f_tid best) (g_id g);
  match nth_error best i with Some row => render ps g row | None => Err IndexError end.
Definition render_all (ps : list tmpl) (tab : list frow) (tgs : list targ) : res (list (dict (list Q))) := mapM (render_target ps (zbest tab)) tgs.
