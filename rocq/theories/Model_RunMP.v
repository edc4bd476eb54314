(* Model of a whole run on the CPU with several worker processes (mp_procs > 1, no MPI): the scan (zscan.py 941-1105
   with the branch 1037-1094), the refinement (zfind.py 328-399 with the branch 364-399) and the table (zfind.py
   458-714), put together from the models of the single functions (Model_Run.v) and of the processes (Model_MP.v).
   The template data are made by the main process (templates.py 584-598).
   Simplifications: those of Model_Run.v and Model_MP.v.  Because the order in which the processes work is not fixed, a
   run is a relation between the input and the table.  A run that raises or never ends relates to nothing. *)
From Verif Require Import Prelude NumX Model_Fitz Model_Rebin Model_Dist Model_MP Model_Zscan Model_Piece Model_IO Model_Zfind Model_Run Model_RunMPI.

(* the processes were started, the main process has collected everything and joined them: zscan.py 1052-1094, zfind.py 374-399 *)
Definition collects {D V} (f : tgt D -> res V) (data : list (list (tgt D))) (keys : list (list Z)) (withprog : bool) (d : dict V) : Prop :=
  exists k s, mp_steps f data keys withprog k (mp_init data withprog) s /\ m_par s = PEnd d.
(* zscan.py 1066-1069 *)
Definition progincr (nproc ntarget : nat) : res Z :=
  if ntarget <? nproc then (if ntarget =? 0 then Err ZeroDivisionError else Ok (100 / Z.of_nat ntarget)%Z) else Ok 10%Z.

Section MP.
Variables (slv : solvers) (argsort : list xq -> list nat) (polyfit : list Q -> list Q -> option (Q * Q * Q)) (isqrt : Q -> Q).
Variable trans : option string -> Q -> Q -> Q.
Variables (nminima nz nproc : nat).

(* zscan.py 843-887, one turn of the loop: the chi2 and the penalty of one target *)
Definition scan_value (p : tmpl) (td : tdict) (t : tgt targ) : res (vec * vec) :=
  do row <- zchi2_target slv (p_core p) td (length (p_zs p)) (data_of (t_data t)); Ok (fst (fst row), snd row).
(* zscan.py 1037-1103 for one template; 1098: in the order of the ids *)
Definition mp_scan (ts : list (tgt targ)) (r : scans) (pt : tmpl * tdict) (r' : scans) : Prop :=
  exists data keys inc d, scan_config ts nproc = Ok (data, keys) /\ progincr nproc (length ts) = Ok inc /\
    collects (scan_value (fst pt) (snd pt)) data keys true d /\
    put_all r (map (fun x => (fst x, (full_type (fst pt), {| e_zchi2 := fst (snd x); e_penalty := snd (snd x); e_fits := None |})))
                 (isort (fun a b => Z.leb (fst a) (fst b)) d)) = Ok r'.
(* zfind.py 382-384 and 77-94: the fits of one target.  A missing scan raises in the main process, before the process starts;
   here the process fails: either way there is no table *)
Definition fit_value (r : scans) (p : tmpl) (t : tgt targ) : res (N * list (fit Q (list Q))) :=
  match dget r (t_id t) with
  | None => Err KeyError
  | Some e => match sget e (full_type p) with
              | None => Err KeyError
              | Some e => do fs <- fit_target slv argsort polyfit isqrt trans nminima nz p (t_data t) (map2 Qplus (e_zchi2 e) (e_penalty e)); Ok (npixels (t_data t), fs)
              end
  end.
(* zfind.py 395-396: results[rs[0]][ft]['zfit'] = rs[1] *)
Definition store_fit (p : tmpl) (r : scans) (x : Z * (N * list (fit Q (list Q)))) : res scans :=
  match dget r (fst x) with
  | None => Err KeyError
  | Some e => match sget e (full_type p) with
              | None => Err KeyError
              | Some e => put r (fst x) (full_type p) {| e_zchi2 := e_zchi2 e; e_penalty := e_penalty e; e_fits := Some (snd x) |}
              end
  end.
(* zfind.py 364-399 for one template *)
Definition mp_fit (ts : list (tgt targ)) (r : scans) (p : tmpl) (r' : scans) : Prop :=
  exists data keys d, fit_config ts nproc = Ok (data, keys) /\ collects (fit_value r p) data keys false d /\
    fold_left (fun acc x => do r <- acc; store_fit p r x) d (Ok r) = Ok r'.

(* one template after the other: zscan.py 958, zfind.py 336 *)
Inductive each {A B : Type} (step : A -> B -> A -> Prop) : A -> list B -> A -> Prop :=
| each_nil a : each step a [] a
| each_cons a b l a1 a2 : step a b a1 -> each step a1 l a2 -> each step a (b :: l) a2.

(* the whole run *)
Definition run_mp (ps : list tmpl) (ts : list (tgt targ)) (tab : list frow) : Prop :=
  let tgs := map t_data ts in
  exists tds r1 r2, mapM (fun p => tdata trans p (grids tgs) (p_zs p)) ps = Ok tds /\
    each (mp_scan ts) (empty_scans tgs) (combine ps tds) r1 /\
    each (mp_fit ts) r1 (by_type ps) r2 /\
    table nminima ps (map g_id tgs) r2 = Ok tab.
End MP.
