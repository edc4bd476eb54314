(* Model of py/redrock/plotspec.py (PlotSpec), py/redrock/zwarning.py and the loops of
   bin/rrplot.  Simplifications: numbers are exact rationals; the drawing library
   is not modelled: what is handed to it is recorded (curves, models, labels, limits); NaN is None;
   scipy.signal.medfilt with self.smooth = 1 (36, never changed) is the identity; zooming with the
   mouse is not modelled.  matplotlib catches an exception raised by a key handler, prints it and
   goes on: the changes made before it stay. *)
From Verif Require Import Prelude NumX Model_Dist Model_Fitz Model_Zscan Model_IO Model_Rebin Model_Targets2 Model_Arch.
Open Scope nat_scope.

(* ---------- zwarning.py 14-49 ---------- *)
(* ZWarningMask.__dict__: the constants 15-37, flags, and the names Python adds; the value of the
   entries that are not integers is not looked at: 0 here *)
Definition class_dict : list (string * Z) :=
  [("__module__", 0); ("SKY", 2^0); ("LITTLE_COVERAGE", 2^1); ("SMALL_DELTA_CHI2", 2^2); ("NEGATIVE_MODEL", 2^3); ("MANY_OUTLIERS", 2^4); ("Z_FITLIMIT", 2^5);
   ("NEGATIVE_EMISSION", 2^6); ("UNPLUGGED", 2^7); ("BAD_TARGET", 2^8); ("NODATA", 2^9); ("BAD_MINFIT", 2^10); ("POORDATA", 2^11);
   ("RESERVED16", 2^16); ("RESERVED17", 2^17); ("RESERVED18", 2^18); ("RESERVED19", 2^19); ("RESERVED20", 2^20); ("RESERVED21", 2^21);
   ("RESERVED22", 2^22); ("RESERVED23", 2^23); ("flags", 0); ("__dict__", 0); ("__weakref__", 0); ("__doc__", 0)]%string%Z.
(* str.isupper for ASCII: at least one upper-case letter, no lower-case letter *)
Definition is_up (c : ascii) : bool := let n := nat_of_ascii c in (65 <=? n) && (n <=? 90).
Definition is_low (c : ascii) : bool := let n := nat_of_ascii c in (97 <=? n) && (n <=? 122).
Fixpoint str_exists (f : ascii -> bool) (s : string) : bool := match s with EmptyString => false | String c r => f c || str_exists f r end.
Definition isupper (s : string) : bool := str_exists is_up s && negb (str_exists is_low s).
(* 41-49: names not starting with '_' and in upper case, sorted by value *)
Definition flags_of (d : list (string * Z)) : list (string * Z) :=
  isort (fun a b => (snd a <=? snd b)%Z) (filter (fun kv => negb (prefix "_" (fst kv)) && isupper (fst kv)) d).
Definition flags : list (string * Z) := flags_of class_dict.
(* 52-56 *)
Definition badfit_names : list string := ["NEGATIVE_MODEL"; "MANY_OUTLIERS"; "Z_FITLIMIT"; "NEGATIVE_EMISSION"; "BAD_MINFIT"]%string.
Definition plot_badfit_mask : Z := fold_left (fun m n => Z.lor m match sget class_dict n with Some v => v | None => 0%Z end) badfit_names 0%Z.

(* plotspec.py 196-205: None = the green 'ZWARN=0'; Some l = the red lines *)
Definition zwarn_label (zwarn : Z) : option (list string) :=
  if (zwarn =? 0)%Z then None else Some (map fst (filter (fun nm => negb (Z.land zwarn (snd nm) =? 0)%Z) flags)).

(* ---------- what PlotSpec is given ---------- *)
(* one row of the zfit table; r_legcoeff, the columns only an archetype fit has: ncoeff is int8 but small *)
Record prow := { r_tid : Z; r_znum : Z; r_spectype : string; r_subtype : string; r_z : Q; r_chi2 : Q; r_zwarn : Z; r_coeff : list Q; r_ncoeff : nat;
                 r_legcoeff : option legc }.
Record ptmpl := { t_type : string; t_sub : string; t_wave : list Q; t_flux : list (list Q) }.
Definition t_nbasis (t : ptmpl) : nat := length (t_flux t).
Definition t_full (t : ptmpl) : string := make_fulltype (t_type t) (Some (t_sub t)).
Record pspec := { s_wave : list Q; s_flux : list Q; s_ivar : list Q; s_R : option csr }.
Record ptarget := { q_id : Z; q_spectra : list pspec }.
Record pcurve := { c_redshifts : list Q; c_zchi2 : list Q; c_penalty : list Q }.
Definition pscan := dict (list (string * pcurve)).         (* zscan[targetid][fulltype] *)

(* bin/rrplot 40-43: the dictionary of templates; a later file replaces an earlier one of the same type *)
Definition rrplot_templates (ts : list ptmpl) : list (string * ptmpl) := fold_left (fun d t => sset d (t_full t) t) ts [].
(* bin/rrplot 57-62: which files are read *)
Definition rrplot_files (datatype : string) (specfile : list string) : res (list string) :=
  if String.eqb datatype "desi" then match specfile with f :: _ => Ok [f] | [] => Err IndexError end
  else if String.eqb datatype "boss" then Ok specfile else Err NameError.

(* 23-29: targets that have a row in zfit, in the order given *)
Definition keep_targets (ts : list ptarget) (zfit : list prow) : list ptarget :=
  filter (fun t => existsb (fun r => (r_tid r =? q_id t)%Z) zfit) ts.

(* ---------- plot, 97-221 ---------- *)
(* the model of a row: a template, or the archetypes of its spectral type *)
Record penv := { v_targets : list ptarget;                               (* after 23-29 *)
                 v_templates : list (string * ptmpl);
                 v_archetypes : option (arch_env * list (string * archetype));   (* None: archetypes=False *)
                 v_zscan : pscan; v_zfit : list prow; v_truth : option (list (Z * Q)) }.
Inductive pmodel := ByTemplate (t : ptmpl) | ByArchetype (E : arch_env) (A : archetype).
(* 108-116 *)
Definition find_model (E : penv) (zz : prow) : res pmodel :=
  let fulltype := make_fulltype (r_spectype zz) (Some (r_subtype zz)) in
  match v_archetypes E with
  | Some (ae, ar) => match sget ar (r_spectype zz) with None => Err KeyError | Some A => Ok (ByArchetype ae A) end
  | None => match sget (v_templates E) fulltype with
            | None => Err KeyError
            | Some t => if String.eqb (t_type t) (r_spectype zz) then Ok (ByTemplate t) else Err ValueError
            end
  end.
(* 166-169; zz['legcoeff'] of a row without that column: KeyError *)
Definition eval_row (m : pmodel) (zz : prow) (wave : list Q) : res (list Q) :=
  match m with
  | ByTemplate t => do v <- template_eval (t_wave t) (t_flux t) (firstn (t_nbasis t) (r_coeff zz)) wave (r_z zz) None;
                    Ok (map (fun x => x * (1 + r_z zz))%Q v)
  | ByArchetype ae A => match r_legcoeff zz with
                        | None => Err KeyError
                        | Some (L1 lc) => arch_eval ae A (r_subtype zz) (firstn (r_ncoeff zz) (r_coeff zz)) wave (r_z zz) None (Some lc)
                        (* a row per camera: archetypes.py 215-218, `model += (an array of 2 dimensions)` raises *)
                        | Some (L2 _) => do _ <- arch_eval ae A (r_subtype zz) (firstn (r_ncoeff zz) (r_coeff zz)) wave (r_z zz) None None; Err ValueError
                        end
  end.
(* 123-130 *)
Definition drawn_types : list string := ["STAR"; "GALAXY"; "QSO"]%string.
Definition curves (sc : list (string * pcurve)) : list (string * (list Q * list Q * list Q)) :=
  flat_map (fun ty => match sget sc ty with
                      | None => []
                      | Some c => [(ty, (c_redshifts c, c_zchi2 c, map2 Qplus (c_zchi2 c) (c_penalty c)))]
                      end) drawn_types.
(* x[isbad] = np.nan *)
Definition blank (bad : list bool) (v : list Q) : list (option Q) := map2 (fun (b : bool) x => if b then None else Some x) bad v.
Definition good_values (bad : list bool) (v : list Q) : list Q := flat_map (fun o => match o with Some x => [x] | None => [] end) (blank bad v).
(* np.percentile(v, q): linear interpolation in the sorted values *)
Definition percentile (v : list Q) (q : Q) : Q :=
  let s := isort Qle_bool v in
  let p := (inject_Z (Z.of_nat (length s - 1)) * q / (100 # 1))%Q in
  let i := Z.to_nat (Qnum p / QDen p)%Z in
  let f := (p - inject_Z (Z.of_nat i))%Q in
  (nth i s 0 * (1 - f) + nth (S i) s (nth i s 0) * f)%Q.
Definition qmaxl (l : list Q) : Q := match l with [] => 0%Q | x :: r => fold_left Qmax r x end.
(* np.max(model)*1.05: NaN if an entry is *)
Definition max_model (v : list (option Q)) : option Q :=
  if forallb (fun o => match o with Some _ => true | None => false end) v
  then Some (qmaxl (flat_map (fun o => match o with Some x => [x] | None => [] end) v) * (105 # 100))%Q else None.
(* Python max(a, b, x): x is kept only if it is larger; a comparison with NaN is False *)
Definition pymax (a b : Q) (x : option Q) : Q :=
  let m := if qlt a b then b else a in match x with Some y => if qlt m y then y else m | None => m end.
Definition pymin (a b : Q) : Q := if qlt b a then b else a.
(* one spectrum, 165-184: what is drawn, and the limits *)
Record pdrawn := { g_wave : list Q; g_flux : list (option Q); g_mx : list Q; g_model : list (option Q) }.
Definition draw_spec (m : pmodel) (zz : prow) (acc : list pdrawn * (Q * Q)) (s : pspec) : res (list pdrawn * (Q * Q)) :=
  do mx <- eval_row m zz (s_wave s);
  do model <- match s_R s with None => Err AttributeError | Some R => csr_vec R mx end;
  let bad := map (fun x => Qeq_bool x 0) (s_ivar s) in
  let flux := blank bad (s_flux s) in
  let model := blank bad model in
  let good := good_values bad (s_flux s) in
  let '(ds, (ymin, ymax)) := acc in
  let lim := match good with
             | [] => (ymin, ymax)
             | _ => (pymin ymin (percentile good 1), pymax ymax (percentile good (99 # 1)) (max_model model))
             end in
  Ok (ds ++ [{| g_wave := s_wave s; g_flux := flux; g_mx := mx; g_model := model |}], lim).
(* 186-187 *)
Definition fix_limits (l : Q * Q) : Q * Q := if Qeq_bool (fst l) 0 && Qeq_bool (snd l) 0 then (fst l, 1%Q) else l.
(* 137-144: the true redshift drawn; Some None = the warning *)
Definition truth_line (truth : option (list (Z * Q))) (tid : Z) : option (option Q) :=
  match truth with None => None | Some l => Some (match filter (fun p => (fst p =? tid)%Z) l with p :: _ => Some (snd p) | [] => None end) end.
Record picture := { k_target : Z; k_itarget : nat; k_znum : Z; k_row : prow; k_fulltype : string;
                    k_curves : list (string * (list Q * list Q * list Q));
                    k_points : list (Q * Q * Z);             (* 132-135: z, chi2, znum of every row *)
                    k_truth : option (option Q);
                    k_spectra : list pdrawn; k_ytext : Q; k_zwarn : option (list string);
                    k_ylim : Q * Q }.                         (* the limits of the lower panel, 211-216 *)

(* navigation state: itarget, znum, nznum; p_ylim the limits of the lower panel *)
Record pstate := { p_itarget : nat; p_znum : Z; p_nznum : nat; p_ylim : Q * Q }.
(* rows of the target, and the one shown: 102-105 *)
Definition rows_of (zfit : list prow) (tid : Z) : list prow := filter (fun r => (r_tid r =? tid)%Z) zfit.
(* the state after a call of plot, and what it drew or raised *)
Definition plot (E : penv) (st : pstate) (keepzoom : bool) : pstate * res picture :=
  match nth_error (v_targets E) (p_itarget st) with
  | None => (st, Err IndexError)
  | Some target =>
    let zfit := rows_of (v_zfit E) (q_id target) in
    let st1 := {| p_itarget := p_itarget st; p_znum := p_znum st; p_nznum := length zfit; p_ylim := p_ylim st |} in
    let r :=
      match filter (fun r => (r_znum r =? p_znum st)%Z) zfit with
      | [] => Err IndexError
      | zz :: _ =>
        do m <- find_model E zz;
        match dget (v_zscan E) (q_id target) with
        | None => Err KeyError
        | Some sc =>
          do dl <- fold_left (fun acc s => do a <- acc; draw_spec m zz a s) (q_spectra target) (Ok ([], (0%Q, 0%Q)));
          let lim := fix_limits (snd dl) in
          Ok {| k_target := q_id target; k_itarget := p_itarget st; k_znum := p_znum st; k_row := zz;
                k_fulltype := make_fulltype (r_spectype zz) (Some (r_subtype zz));
                k_curves := curves sc; k_points := map (fun r => (r_z r, r_chi2 r, r_znum r)) zfit;
                k_truth := truth_line (v_truth E) (q_id target);
                k_spectra := fst dl; k_ytext := (fst lim + (9 # 10) * (snd lim - fst lim))%Q; k_zwarn := zwarn_label (r_zwarn zz);
                k_ylim := if keepzoom then p_ylim st else lim |}
        end
      end in
    (match r with
     | Ok k => {| p_itarget := p_itarget st1; p_znum := p_znum st1; p_nznum := p_nznum st1; p_ylim := k_ylim k |}
     | Err _ => st1
     end, r)
  end.

(* ---------- __init__, 15-67 ---------- *)
Definition start : pstate := {| p_itarget := 0; p_znum := 0; p_nznum := 0; p_ylim := (0%Q, 1%Q) |}.   (* matplotlib's default limits *)
Definition open_plot (targets : list ptarget) (templates : list (string * ptmpl)) (arch : option (arch_env * list (string * archetype)))
   (zscan : pscan) (zfit : list prow) (truth : option (list (Z * Q))) : penv * (pstate * res picture) :=
  let E := {| v_targets := keep_targets targets zfit; v_templates := templates; v_archetypes := arch; v_zscan := zscan; v_zfit := zfit; v_truth := truth |} in
  (E, plot E start false).

(* ---------- _onkeypress, 69-95 ---------- *)
Inductive reply := Drew (k : picture) | AtLast | AtFirst | Details (tid : Z) (rows : list prow) | Nothing | Raised (e : exn).
Definition reply_of (r : res picture) : reply := match r with Ok k => Drew k | Err e => Raised e end.
(* (self.znum + d) % self.nznum *)
Definition turn (E : penv) (st : pstate) (d : Z) : pstate * reply :=
  if p_nznum st =? 0 then (st, Raised ZeroDivisionError)
  else let '(st1, r) := plot E {| p_itarget := p_itarget st; p_znum := ((p_znum st + d) mod Z.of_nat (p_nznum st))%Z; p_nznum := p_nznum st; p_ylim := p_ylim st |} true in
       (st1, reply_of r).
Definition go (E : penv) (st : pstate) (i : nat) : pstate * reply :=
  let '(st1, r) := plot E {| p_itarget := i; p_znum := 0; p_nznum := p_nznum st; p_ylim := p_ylim st |} false in (st1, reply_of r).
Definition press (E : penv) (st : pstate) (key : string) : pstate * reply :=
  if String.eqb key "right" then turn E st 1
  else if String.eqb key "left" then turn E st (-1)
  else if String.eqb key "down" then
    if (Z.of_nat (p_itarget st) =? Z.min (Z.of_nat (length (v_targets E))) (Z.of_nat (length (v_zscan E))) - 1)%Z then (st, AtLast)
    else go E st (S (p_itarget st))
  else if String.eqb key "up" then
    if p_itarget st =? 0 then (st, AtFirst) else go E st (p_itarget st - 1)
  else if String.eqb key "d" then
    match nth_error (v_targets E) (p_itarget st) with
    | None => (st, Raised IndexError)
    | Some t => (st, Details (q_id t) (rows_of (v_zfit E) (q_id t)))
    end
  else (st, Nothing).
(* the replies to a history of keys *)
Fixpoint session (E : penv) (st : pstate) (keys : list string) : pstate * list reply :=
  match keys with
  | [] => (st, [])
  | k :: r => let '(st1, x) := press E st k in let '(st2, xs) := session E st1 r in (st2, x :: xs)
  end.
