(* Model of external/desi.py: target selection, reading and attaching spectra, warning bits,
   order of the model spectra; utils.get_mp; archetypes.split_archetype_coeff. *)
From Verif Require Import Prelude NumX Model_Dist Model_Zscan Model_IO.

(* ---------- Python slices l[a:b] ---------- *)
Definition clampi (n : nat) (a : Z) : nat := Z.to_nat (Z.min (Z.of_nat n) (Z.max 0 (if (a <? 0)%Z then a + Z.of_nat n else a))).
Definition pyslice {A} (l : list A) (a b : Z) : list A :=
  firstn (clampi (length l) b - clampi (length l) a) (skipn (clampi (length l) a) l).

(* ---------- selection of targets ---------- *)
(* desi.py 353-374, one file; keep_targetids before is [l] *)
Definition window (l : list Z) (first n : option Z) : res (list Z) :=
  let ft := match first with None => 0%Z | Some f => f end in
  let len := Z.of_nat (length l) in
  if (len <? ft)%Z then Err RuntimeError else
  let nkeep := match n with None => len | Some k => k end in
  if (len <? ft + nkeep)%Z then Err RuntimeError else
  Ok (pyslice l ft (ft + nkeep)).
(* desi.py 912-920: --mintarget and -n/--ntargets *)
Definition cli_window (mintarget ntargets : option Z) : option Z * option Z :=
  (match mintarget with Some m => Some m | None => match ntargets with Some _ => Some 0%Z | None => None end end, ntargets).
(* np.unique(x, return_index=True): distinct values in increasing order with the first index of each *)
Definition zmem (t : Z) (l : list Z) : bool := existsb (Z.eqb t) l.
Fixpoint index_of (t : Z) (l : list Z) : nat := match l with [] => 0 | x :: r => if (x =? t)%Z then 0 else S (index_of t r) end.
Fixpoint zdedup (l : list Z) : list Z := match l with [] => [] | x :: r => if zmem x r then zdedup r else x :: zdedup r end.
Definition np_unique_index (l : list Z) : list nat := map (fun t => index_of t l) (isort Z.leb (zdedup l)).
(* desi.py 453-460: sortedidx[argsort(sortedidx)], then the ids at these indices *)
Definition unique_targets (l : list Z) : list Z := map (fun i => nth i l 0%Z) (isort Nat.leb (np_unique_index l)).

(* ---------- spectra ---------- *)
Section Load.
  Context {R : Type}.  (* resolution data of one row *)
  (* one input file: ids of the spectral rows (382, 384), ids kept after selection (374), bands in HDU
     order (430-442), wavelength grids and the tables *)
  Record sfile := { sf_ids : list Z; sf_keep : list Z; sf_bands : list string; sf_wave : string -> list Q;
    sf_flux : string -> list (list xq); sf_ivar : string -> list (list xq); sf_mask : string -> option (list (list Z)); sf_res : string -> list R }.
  (* 386-392 *)
  Definition spec_keep (f : sfile) : list nat := map fst (filter (fun p => zmem (snd p) (sf_keep f)) (enum (sf_ids f))).
  (* 400-410 *)
  Definition sliced_ids (f : sfile) : list Z := filter (fun t => zmem t (sf_keep f)) (sf_ids f).
  (* 415-418 *)
  Definition target_specs (f : sfile) (t : Z) : option (list nat) :=
    if zmem t (sf_keep f) then Some (map fst (filter (fun p => (snd p =? t)%Z) (enum (sliced_ids f)))) else None.
  (* hdus[...].data[rows] *)
  Definition take {X} (rows : list nat) (data : list X) : res (list X) :=
    mapM (fun i => match nth_error data i with Some x => Ok x | None => Err IndexError end) rows.
  Record slot := { s_wave : list Q; s_band : string; s_flux : option (list xq); s_ivar : option (list xq); s_res : option R }.
  (* 496-507 *)
  Definition init_band (f : sfile) (t : Z) (b : string) : list slot :=
    match target_specs f t with
    | Some l => repeat {| s_wave := sf_wave f b; s_band := b; s_flux := None; s_ivar := None; s_res := None |} (length l)
    | None => []
    end.
  Definition init_file (t : Z) (f : sfile) : list slot := concat (map (init_band f t) (sf_bands f)).
  (* the data of one target on its process and the four offsets of 514-517.  The code keeps the
     offsets in dictionaries by target id; a process has each id once (C16, C68) *)
  Record tst := { t_slots : list slot; t_cf : nat; t_ci : nat; t_cm : nat; t_cr : nat }.
  Definition init_target (files : list sfile) (t : Z) : tst :=
    {| t_slots := concat (map (init_file t) files); t_cf := 0; t_ci := 0; t_cm := 0; t_cr := 0 |}.
  Definition set_slot (k : nat) (s : slot) (ss : list slot) : list slot := firstn k ss ++ s :: skipn (S k) ss.
  (* for trow in target_specs: spectra[offset] <- hdata[trow]; offset += 1 *)
  Fixpoint assign {X} (set : slot -> X -> res slot) (hdata : list X) (trows : list nat) (k : nat) (ss : list slot) : res (list slot * nat) :=
    match trows with
    | [] => Ok (ss, k)
    | r :: rs => match nth_error hdata r, nth_error ss k with
                 | Some x, Some s => do s' <- set s x; assign set hdata rs (S k) (set_slot k s' ss)
                 | _, _ => Err IndexError
                 end
    end.
  (* 533-536 *)
  Definition clean (x : xq) : xq := if isfinite x then x else Fin 0.
  Definition set_flux (s : slot) (x : list xq) : res slot := Ok {| s_wave := s_wave s; s_band := s_band s; s_flux := Some x; s_ivar := s_ivar s; s_res := s_res s |}.
  (* 553-557: row of ivar, zero where ivar or the raw flux is not finite *)
  Definition clean_ivar (flux ivar : list xq) : list xq := map (fun p => if isfinite (fst p) && isfinite (snd p) then snd p else Fin 0) (combine flux ivar).
  (* 569-572: flux*sqrt(ivar) < -|nsig|.  For ivar < 0 the root is NaN and the comparison false; for
     ivar >= 0 the test is squared (Proof_Desi.sigma_test relates it to the real square root) *)
  Definition bigneg (nsig : Q) (flux ivar : xq) : bool :=
    match flux, ivar with
    | Fin f, Fin v => Qle_bool 0 v && qlt f 0 && qlt (nsig * nsig) (f * f * v)
    | _, _ => false
    end.
  Definition set_ivar (nsig : Q) (s : slot) (x : list xq) : res slot :=
    match s_flux s with
    | None => Err TypeError
    | Some fl => if length fl =? length x then
        Ok {| s_wave := s_wave s; s_band := s_band s; s_flux := s_flux s; s_res := s_res s;
              s_ivar := Some (map (fun p => if bigneg nsig (fst p) (snd p) then Fin 0 else snd p) (combine fl x)) |}
        else Err ValueError
    end.
  (* 590-591: ivar *= (mask == 0); ivar is finite here.  Arrays of different lengths: ValueError (a
     one-element mask, which numpy would broadcast, is not modelled) *)
  Definition mask_pixels (ivar : list xq) (m : list Z) : list xq := map (fun p => if (snd p =? 0)%Z then fst p else Fin 0) (combine ivar m).
  Definition set_mask (s : slot) (m : list Z) : res slot :=
    match s_ivar s with
    | None => Err TypeError
    | Some iv => if length iv =? length m then
        Ok {| s_wave := s_wave s; s_band := s_band s; s_flux := s_flux s; s_ivar := Some (mask_pixels iv m); s_res := s_res s |}
        else Err ValueError
    end.
  Definition set_res (s : slot) (r : R) : res slot := Ok {| s_wave := s_wave s; s_band := s_band s; s_flux := s_flux s; s_ivar := s_ivar s; s_res := Some r |}.
  (* 528-642 for one band and one target *)
  Definition band_step (nsig : Q) (f : sfile) (b : string) (t : Z) (st : tst) : res tst :=
    let rows := spec_keep f in
    do fl <- take rows (sf_flux f b);
    do iv <- take rows (sf_ivar f b);
    match target_specs f t with
    | None => Ok st
    | Some tr =>
        do a <- assign set_flux (map (map clean) fl) tr (t_cf st) (t_slots st);
        do c <- assign (set_ivar nsig) (map (fun p => clean_ivar (fst p) (snd p)) (combine fl iv)) tr (t_ci st) (fst a);
        do m <- match sf_mask f b with
                | None => Ok (fst c, t_cm st)
                | Some md => do mk <- take rows md; assign set_mask mk tr (t_cm st) (fst c)
                end;
        do rd <- take rows (sf_res f b);
        do r <- assign set_res rd tr (t_cr st) (fst m);
        Ok {| t_slots := fst r; t_cf := snd a; t_ci := snd c; t_cm := snd m; t_cr := snd r |}
    end.
  Fixpoint foldM {A B} (f : B -> A -> res B) (l : list A) (b : B) : res B := match l with [] => Ok b | a :: r => do b' <- f b a; foldM f r b' end.
  (* 519-645: files without kept rows are skipped; for each band, all the targets of the process *)
  Definition file_step_proc (nsig : Q) (sts : list (Z * tst)) (f : sfile) : res (list (Z * tst)) :=
    match spec_keep f with
    | [] => Ok sts
    | _ => foldM (fun sts b => mapM (fun p => do st <- band_step nsig f b (fst p) (snd p); Ok (fst p, st)) sts) (sf_bands f) sts
    end.
  Definition load_proc (nsig : Q) (files : list sfile) (my_targets : list Z) : res (list (Z * tst)) :=
    foldM (file_step_proc nsig) files (map (fun t => (t, init_target files t)) my_targets).
  (* the same for a single target *)
  Definition file_step (nsig : Q) (t : Z) (st : tst) (f : sfile) : res tst :=
    match spec_keep f with
    | [] => Ok st
    | _ => foldM (fun st b => band_step nsig f b t st) (sf_bands f) st
    end.
  Definition load_target (nsig : Q) (files : list sfile) (t : Z) : res tst := foldM (file_step nsig t) files (init_target files t).
  (* 467-474: weights when all spectra are used *)
  Definition target_weight (files : list sfile) (t : Z) : nat :=
    fold_left (fun w f => match target_specs f t with Some l => w + length l | None => w end) files 0.
End Load.
Arguments sfile : clear implicits. Arguments slot : clear implicits. Arguments tst : clear implicits.

(* 605-628: resolution data sent in batches of [m] rows and stacked again *)
Definition bcast_batches {X} (m : nat) (hdata : list X) : list X :=
  if length hdata <=? m then hdata
  else concat (map (fun i => firstn m (skipn (i * m) hdata)) (seq 0 ((length hdata + m - 1) / m))).

(* 1009-1014 *)
Definition skymask (wave : list Q) (ivar : list xq) : list xq :=
  map (fun p => if (Qle_bool 5572 (fst p) && Qle_bool (fst p) 5582) || (Qle_bool 9792 (fst p) && Qle_bool (fst p) 9795) then Fin 0 else snd p) (combine wave ivar).

(* ---------- warning bits, 1093-1135 ---------- *)
(* one fibermap row: the tests of 1097-1107 on COADD_FIBERSTATUS and OBJTYPE.  fm_cover lists the
   bits BADCOLUMN, BADAMPB, BADAMPR, BADAMPZ that fibermask knows (1105-1107) *)
Record fmrow := { fm_id : Z; fm_status : Z; fm_objtype : string }.
Record fbits := { b_poorpos : Z; b_badpos : Z; b_broken : Z; b_unassigned : Z; b_cover : list Z }.
Definition hit (status bit : Z) : bool := negb (Z.land status bit =? 0)%Z.
Section Warn.
  Context (fb : fbits).
  Definition poorpos (r : fmrow) : bool := hit (fm_status r) (b_poorpos fb).
  Definition badpos (r : fmrow) : bool := hit (fm_status r) (b_badpos fb).
  Definition broken (r : fmrow) : bool := hit (fm_status r) (b_broken fb).
  Definition unassigned (r : fmrow) : bool := hit (fm_status r) (b_unassigned fb).
  Definition is_sky (r : fmrow) : bool := String.eqb (fm_objtype r) "SKY".
  Definition is_bad (r : fmrow) : bool := negb (String.eqb (fm_objtype r) "TGT") && negb (is_sky r).
  Definition badcoverage (r : fmrow) : bool := existsb (hit (fm_status r)) (b_cover fb).
  (* zwarning.py *)
  Definition ZW_SKY : Z := 1.  Definition ZW_LITTLE_COVERAGE : Z := 2.  Definition ZW_UNPLUGGED : Z := 128.
  Definition ZW_BAD_TARGET : Z := 256.  Definition ZW_NODATA : Z := 512.  Definition ZW_POORDATA : Z := 2048.
  (* a row of zfit: the columns touched here and the others *)
  Record wrow := { w_id : Z; w_zwarn : Z; w_spectype : string; w_subtype : string; w_coeff : list Q; w_z : Q; w_method : string; w_rest : Z }.
  (* np.isin(zfit['targetid'], targetids[cond]) *)
  Definition among (fm : list fmrow) (cond : fmrow -> bool) (t : Z) : bool := zmem t (map fm_id (filter cond fm)).
  Definition orw (b : bool) (m : Z) (r : wrow) : wrow :=
    if b then {| w_id := w_id r; w_zwarn := Z.lor (w_zwarn r) m; w_spectype := w_spectype r; w_subtype := w_subtype r; w_coeff := w_coeff r; w_z := w_z r; w_method := w_method r; w_rest := w_rest r |} else r.
  Definition reset (b : bool) (r : wrow) : wrow :=
    if b then {| w_id := w_id r; w_zwarn := w_zwarn r; w_spectype := "GALAXY"; w_subtype := ""; w_coeff := map (fun _ => 0%Q) (w_coeff r); w_z := 0; w_method := "NONE"; w_rest := w_rest r |} else r.
  Definition flag_row (fm : list fmrow) (r0 : wrow) : wrow :=
    let t := w_id r0 in
    let r := orw (among fm poorpos t) ZW_POORDATA r0 in
    let nd := among fm (fun x => badpos x || broken x || unassigned x || is_bad x) t in
    let r := reset nd (orw nd ZW_NODATA r) in
    let r := orw (among fm broken t) ZW_UNPLUGGED r in
    let r := orw (among fm is_sky t) ZW_SKY r in
    let r := orw (among fm badcoverage t) ZW_LITTLE_COVERAGE r in
    orw (among fm is_bad t) ZW_BAD_TARGET r.
  Definition flag_table (fm : list fmrow) (zfit : list wrow) : list wrow := map (flag_row fm) zfit.
End Warn.

(* ---------- order of the models, 1198-1232 ---------- *)
(* np.argsort of ids; np.searchsorted(a, x) on a sorted array: the number of smaller entries *)
Definition argsortZ (l : list Z) : list nat := map fst (isort (fun a b => (snd a <=? snd b)%Z) (enum l)).
Definition searchsortedZ (a : list Z) (x : Z) : nat := length (filter (fun y => (y <? x)%Z) a).
Definition sort_indices (all_ids zids : list Z) : res (list nat) :=
  let xs := argsortZ all_ids in
  let sorted := map (fun i => nth i all_ids 0%Z) xs in
  do idx <- mapM (fun t => match nth_error xs (searchsortedZ sorted t) with Some i => Ok i | None => Err IndexError end) zids;
  (* 1224-1225 *)
  if list_eq_dec Z.eq_dec zids (map (fun i => nth i all_ids 0%Z) idx) then Ok idx else Err AssertionError.
(* 1231-1232; a target's models: dictionary band -> row *)
Definition band_rows {V} (models : list (list (string * V))) (idx : list nat) (band : string) : res (list V) :=
  do rows <- mapM (fun m => match sget m band with Some v => Ok v | None => Err KeyError end) models;
  mapM (fun i => match nth_error rows i with Some v => Ok v | None => Err IndexError end) idx.
Definition model_rows {V} (locals : list (list Z * list (list (string * V)))) (zids : list Z) (bands : list string) : res (list (string * list V)) :=
  let models := concat (map snd locals) in
  let ids := concat (map fst locals) in
  do idx <- sort_indices ids zids;
  mapM (fun b => do rows <- band_rows models idx b; Ok (b, rows)) bands.
(* 837-844, 1157-1203: zbest is only set when an output file is asked for *)
Definition model_step {V} (outfile details : bool) (zbest_ids : list Z) (run : list Z -> res V) : res V :=
  if outfile then run zbest_ids else Err TypeError.

(* ---------- utils.py 108-150 ---------- *)
Definition get_mp (ncpu : Z) (login : bool) (requested : Z) : Z :=
  let mpbest := if (ncpu / 2 =? 0)%Z then 1%Z else (ncpu / 2)%Z in
  let procs := if (requested =? 0)%Z then mpbest else if (ncpu <? requested)%Z then ncpu else requested in
  if login && (4 <? procs)%Z then 4%Z else procs.

(* ---------- archetypes.py 428-443; narch is len(subtype.split(';')) ---------- *)
Definition split_coeff {A} (narch nbands nleg : nat) (coeff : list A) : list A * list (list A) :=
  let all := skipn narch coeff in
  (firstn narch coeff, map (fun i => firstn ((i + 1) * nleg - i * nleg) (skipn (i * nleg) all)) (seq 0 nbands)).
(* 438-443 *)
Definition split_archetype_coeff {A} (subtype : string) (coeff : list A) (nbands nleg : nat) : list A * list (list A) :=
  split_coeff (length (split ";" subtype)) nbands nleg coeff.
