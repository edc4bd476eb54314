(* rrdesi and rrboss as seen by MPI: the collective calls of every rank, with the branches that decide which calls are made.
   external/desi.py 666-1257 (with 210-662), external/boss.py 290-530, templates.py 547-778, zscan.py 910-1105, zfind.py 283-712, targets.py 468-570, utils.py 70-96, 235-258.
   Everything that one process computes or writes by itself is an oracle e_ok: on that rank, at that line, it succeeds or raises an exception. *)
From Verif Require Import Prelude NumX Model_Dist Model_Zscan Model_IO Model_Targets Model_Desi Model_RunDesi Model_Comm.
Open Scope nat_scope.

(* the value of --archetypes: desi.py 877-901 *)
Inductive arch := NoArch | ArchMissing | ArchDir | ArchFile (name : string).
Record mopts := { m_d : dopts; m_gpu : bool; m_maxgpu : option Z; m_debug : bool; m_noabort : bool; m_details : bool; m_outfile : bool; m_model : bool; m_scan : bool;
                  m_arch : arch; m_ids_parse : bool (* --targetids is a list of integers, 910 *) }.
(* the world: the files and the number of templates as rank 0 reads them, the nodes, and which computations fail *)
Record env := { e_files : list dfile; e_tmpl : nat; e_gpu_ok : bool; e_proc : nat -> option nat; e_pci : nat -> Z; e_ok : nat -> nat -> nat -> bool; e_boss : nat -> list Z }.

Definition lift {A} (x : res A) : prog A := match x with Ok a => Ret a | Err e => Raise e end.
Fixpoint mapP {X A} (f : X -> prog A) (l : list X) : prog (list A) :=
  match l with [] => Ret [] | x :: r => let! a := f x in let! s := mapP f r in Ret (a :: s) end.
Definition as_ids (v : val) : prog (list Z) := match v with VIds l => Ret l | _ => Raise TypeError end.
Definition as_bands (v : val) : prog (list string) := match v with VBands l => Ret l | _ => Raise TypeError end.
Definition as_nat (v : val) : prog nat := match v with VN n => Ret n | _ => Raise TypeError end.
Definition as_bool (v : val) : prog bool := match v with VB b => Ret b | _ => Raise TypeError end.
Definition as_list (v : val) : prog (list val) := match v with VL l => Ret l | _ => Raise TypeError end.

Section Ranks.
Variable e : env.
(* a computation of rank r at a line, the i-th time *)
Definition local (r line i : nat) : prog unit := if e_ok e r line i then Ret tt else Raise RuntimeError.
Definition root (r : nat) (p : prog unit) : prog unit := if r =? 0 then p else Ret tt.
(* utils.py 86-87 *)
Definition elapsed (m : nat) : prog unit := let! _ := call m Barrier VU in Ret tt.
(* x = comm.bcast(x, root=0), x is None on the other ranks *)
Definition bcast (m r : nat) (v : val) : prog val := call m (Bcast 0) (if r =? 0 then v else VU).

(* ---------- targets ---------- *)
(* desi.py 281-451, one file *)
Definition open_one (o : dopts) (m r : nat) (x : nat * dfile) : prog (sfile unit) :=
  let '(i, d) := x in
  let! _ := root r (local r 289 i) in
  let! _ := bcast m r (VN 0) in                                            (* nhdu, 338 *)
  let! co := bcast m r (VB (df_coadded d)) in                              (* 339 *)
  let! fm := bcast m r (VIds (map fm_id (df_fm d))) in                     (* coadd_fmap, 340 *)
  let! ex := bcast m r (VIds (df_exp d)) in                                (* exp_fmap, 341 *)
  let! _ := bcast m r VU in                                                (* tsnr2, 342 *)
  let! _ := bcast m r VU in                                                (* header0, 343 *)
  let! fm := as_ids fm in
  let! keep := lift (window (match o_ids o with None => fm | Some l => l end) (o_first o) (o_n o)) in   (* 348-374 *)
  let! co := as_bool co in let! ex := as_ids ex in
  let! _ := local r 400 i in
  let! _ := root r (local r 430 i) in
  let! b := bcast m r (VBands (df_bands d)) in                             (* 447 *)
  let! _ := bcast m r VU in                                                (* wave, 448 *)
  let! b := as_bands b in
  Ret {| sf_ids := if co then fm else ex; sf_keep := keep; sf_bands := b; sf_wave := fun _ => []; sf_flux := fun _ => []; sf_ivar := fun _ => []; sf_mask := fun _ => None; sf_res := fun _ => [] |}.
(* desi.py 528-642, one band *)
Definition res_batches (n : N) : nat := N.to_nat ((n + 9999) / 10000).     (* len(range(0, ntarg, 10000)), 619 *)
Definition band_calls (m r : nat) (f : sfile unit) (i : nat) : prog unit :=
  let! _ := root r (local r 533 i) in
  let! _ := bcast m r VU in let! _ := bcast m r VU in                      (* flux, badflux, 538-539 *)
  let! _ := local r 545 i in
  let! _ := root r (local r 553 i) in
  let! _ := bcast m r VU in                                                (* ivar, 559 *)
  let! _ := local r 565 i in
  let! _ := root r (local r 581 i) in
  let! _ := bcast m r VU in                                                (* mask, 583 *)
  let! _ := local r 590 i in
  let! _ := root r (local r 598 i) in
  let! n := bcast m r (VN (length (spec_keep f))) in                       (* ntarg, 607-611 *)
  let! n := as_nat n in
  let! _ := (if (N.of_nat n <=? 10000)%N then let! _ := bcast m r VU in Ret tt                       (* 616 *)
             else foreach (seq 0 (res_batches (N.of_nat n))) (fun _ => let! _ := bcast m r VU in Ret tt)) in  (* 619-624 *)
  local r 634 i.
(* desi.py 519-645 *)
Definition file_calls (m r : nat) (x : nat * sfile unit) : prog unit :=
  let '(i, f) := x in
  match spec_keep f with
  | [] => Ret tt
  | _ => let! _ := root r (local r 526 i) in foreach (sf_bands f) (fun b => band_calls m r f i)
  end.
(* desi.py 453-486, 1002-1006: all_target_ids and the targets of this rank *)
Definition share (o : dopts) (m r : nat) (caps : option (list Q)) (fs : list (sfile unit)) : prog (list Z) :=
  let ids := unique_targets (concat (map sf_keep fs)) in
  let w := if o_allspec o then Some (fun t => Some (inject_Z (Z.of_nat (target_weight fs t)))) else None in
  let! d := lift (distribute_work m ids w caps) in
  Ret (nth r d []).
Definition dist_targets (o : dopts) (m r : nat) (caps : option (list Q)) : prog (list Z) :=
  let! fs := mapP (open_one o m r) (enum (e_files e)) in
  let! my := share o m r caps fs in
  let! _ := foreach (enum fs) (file_calls m r) in
  let! _ := local r 650 0 in
  Ret my.
(* targets.py 468-489: the first call is collective, the result is kept *)
Definition wavegrids (m r : nat) (cache : option unit) : prog (option unit) :=
  match cache with
  | Some _ => Ret cache
  | None => let! _ := call m Allgather VU in Ret (Some tt)
  end.

(* ---------- templates ---------- *)
(* templates.py 744-778; the ranks get the templates of rank 0 *)
Definition load_templates (m r : nat) (use_gpu : bool) : prog nat :=
  let! _ := elapsed m in
  let! _ := root r (local r 748 0) in
  let! n := bcast m r (VN (e_tmpl e)) in
  let! n := as_nat n in
  let! _ := elapsed m in
  let! _ := (if use_gpu then local r 760 0 else Ret tt) in
  let! _ := elapsed m in
  let! _ := local r 769 0 in
  let! _ := elapsed m in
  Ret n.

(* ---------- scan ---------- *)
(* zscan.py 1005-1031 with templates.py 613-663: compute, pass the piece on, until the own piece is back.  fuel: number of rounds the model follows *)
Fixpoint ring (m r t fuel idx : nat) : prog unit :=
  match fuel with
  | 0 => Raise RuntimeError
  | S k => let! _ := local r 1007 t in
           let! v := call m Shift (VN idx) in
           let! i := as_nat v in
           if i =? r then Ret tt else ring m r t k i
  end.
(* zscan.py 958-1096, one template; redist: ReDistTemplate, whose cycle() only returns True (templates.py 695-706) *)
Definition scan_one (m r : nat) (use_gpu redist : bool) (my : list Z) (t : nat) : prog unit :=
  let! _ := elapsed m in                                                   (* 966 *)
  let! _ := (if use_gpu && match my with [] => true | _ => false end then Ret tt                      (* 1003-1004 *)
             else if redist then local r 1007 t else ring m r t m r) in
  elapsed m.                                                               (* 1096 *)
(* zfind.py 283-712 *)
Definition zfind_calls (m r : nat) (use_gpu redist scan_given : bool) (my : list Z) (nt : nat) : prog unit :=
  let! _ := elapsed m in                                                   (* 288 *)
  let! _ := (if scan_given then local r 292 0 else foreach (seq 0 nt) (scan_one m r use_gpu redist my)) in
  let! _ := elapsed m in                                                   (* 293 *)
  let! _ := local r 301 0 in
  let! _ := elapsed m in                                                   (* 327 *)
  let! _ := foreach (seq 0 nt) (fun t => let! _ := elapsed m in let! _ := local r 359 t in elapsed m) in   (* 336-401 *)
  let! _ := elapsed m in let! _ := elapsed m in                            (* 402, 406 *)
  let! _ := call m (Gather 0) VU in                                        (* 422-452 *)
  let! _ := call m Barrier VU in                                           (* 454 *)
  let! _ := root r (local r 459 0) in
  elapsed m.                                                               (* 712 *)

(* ---------- rrdesi ---------- *)
Definition has_dash (s : string) : bool := existsb (Ascii.eqb "-"%char) (list_ascii_of_string s).
(* desi.py 829-901, on rank 0 *)
Definition checks (o : mopts) (m : nat) : prog unit :=
  if m_debug o && negb (m =? 1) then Abort else
  if negb (m_details o) && negb (m_outfile o) then Abort else
  if match e_files e with [] => true | _ => false end then Abort else
  if match o_ids (m_d o) with Some _ => match o_first (m_d o) with Some _ => true | None => false end | None => false end then Abort else
  if m_gpu o && negb (e_gpu_ok e) then Abort else
  match m_arch o with
  | NoArch | ArchDir => Ret tt
  | ArchMissing => Abort
  | ArchFile name => if has_dash name then Ret tt else Raise IndexError          (* 894 *)
  end.
(* the elements of set(pci_id_list), 255: bus ids, or whatever else the ranks have sent *)
Definition seen_as (v : val) : Z := match v with VIds [z] => 2 * z | VB true => 1 | VB false => 3 | _ => -1 end%Z.
(* utils.py 240-258 *)
Definition gpu_count (m r : nat) : prog Z :=
  match e_proc e r with
  | Some n => Ret (Z.of_nat n)
  | None => let! _ := local r 251 0 in
            let! l := call m Allgather (VIds [e_pci e r]) in
            let! l := as_list l in
            Ret (Z.of_nat (length (zdedup (map seen_as l))))
  end.
(* desi.py 945-990: use_gpu and the capacities *)
Definition gpu_config (o : mopts) (m r : nat) : prog (bool * option (list Q)) :=
  if m_gpu o then
    let! k := (match m_maxgpu o with Some k => Ret k | None => gpu_count m r end) in
    let use := (Z.of_nat r <? k)%Z in                                      (* 958 *)
    let! l := call m Allgather (VB use) in                                 (* 965 *)
    let! l := as_list l in
    let! flags := mapP as_bool l in
    Ret (use, gpu_capacities flags)                                       (* 976-983 *)
  else Ret (false, None).
(* desi.py 992-1237 *)
Definition try_block (o : mopts) (m r : nat) (use_gpu : bool) (caps : option (list Q)) : prog unit :=
  let! _ := elapsed m in                                                   (* 998 *)
  let! my := dist_targets (m_d o) m r caps in
  let! _ := local r 1010 0 in
  let! dwave := wavegrids m r None in                                      (* 1017 *)
  let! _ := elapsed m in                                                   (* 1066 *)
  let! nt := load_templates m r use_gpu in
  let! _ := elapsed m in                                                   (* 1085 *)
  let! _ := zfind_calls m r use_gpu (m_gpu o) (m_scan o) my nt in          (* 986, 990: redistribute_templates *)
  let! _ := elapsed m in                                                   (* 1091 *)
  let! _ := root r (local r 1096 0) in
  let! _ := local r 1146 0 in
  let! _ := (if m_details o then let! _ := elapsed m in let! _ := root r (local r 1154 0) in elapsed m else Ret tt) in
  let! _ := (if m_outfile o then let! _ := elapsed m in let! _ := root r (local r 1187 0) in let! _ := bcast m r VU in elapsed m else Ret tt) in
  if m_model o then
    let! _ := local r 1203 0 in
    let! _ := call m (Gather 0) VU in let! _ := call m (Gather 0) VU in    (* 1206-1207 *)
    let! _ := elapsed m in                                                 (* 1212 *)
    let! _ := root r (let! _ := local r 1215 0 in let! _ := wavegrids m r dwave in local r 1234 0) in   (* 1213-1235 *)
    elapsed m                                                              (* 1237 *)
  else Ret tt.
(* desi.py 808-1251, on the communicator of the first m ranks *)
Definition after_split (o : mopts) (m r : nat) : prog unit :=
  let! _ := root r (checks o m) in
  let! _ := (match m_arch o with NoArch => Ret tt | _ => local r 906 0 end) in
  let! _ := (if m_ids_parse o then Ret tt else Raise ValueError) in        (* 910 *)
  let! g := gpu_config o m r in
  let! _ := catch (try_block o m r (fst g) (snd g)) (fun x => if m_noabort o then Raise x else Abort) in   (* 1239-1249 *)
  elapsed m.                                                               (* 1251 *)
(* desi.py 684, 796-806 *)
Definition rrdesi_rank (o : mopts) (P r : nat) : prog unit :=
  let! _ := elapsed P in
  match (if m_gpu o then m_maxgpu o else None) with
  | Some k => if (k <? Z.of_nat P)%Z then
                let! _ := call P Split (VB (Z.of_nat r <? k)%Z) in
                if (Z.of_nat r <? k)%Z then after_split o (Z.to_nat k) r else Ret tt
              else after_split o P r
  | None => after_split o P r
  end.

(* ---------- rrboss ---------- *)
(* targets.py 534-570: the argument is the list of the calling rank; a rank where it is None raises TypeError (553) *)
Definition dist_copy (m r : nat) (targets : option (list Z)) : prog (list Z) :=
  let! ids := bcast m r (match targets with Some l => VIds l | None => VU end) in         (* 548 *)
  match targets with
  | None => Raise TypeError
  | Some l =>
    let! d := lift (distribute_work m l (Some (fun _ => Some 1%Q)) None) in              (* 553; the weights do not matter here *)
    let! _ := foreach l (fun t => let! _ := bcast m r (VIds [t]) in Ret tt) in           (* 565 *)
    Ret (nth r d [])
  end.
Record bopts := { b_debug : bool; b_noabort : bool; b_output : bool; b_zbest : bool; b_scan : bool; b_both : bool (* --targetids with --mintarget or --ntargets *); b_ids_parse : bool }.
(* boss.py 378-397, on rank 0 *)
Definition boss_checks (o : bopts) (m : nat) : prog unit :=
  if b_debug o && negb (m =? 1) then Abort else
  if negb (b_output o) && negb (b_zbest o) then Abort else
  if b_both o then Abort else Ret tt.
(* boss.py 435-515.  Every rank reads the spectra by itself (448) *)
Definition boss_try (o : bopts) (m r : nat) : prog unit :=
  let! _ := elapsed m in                                                   (* 441 *)
  let! _ := local r 448 0 in
  let! _ := elapsed m in let! _ := elapsed m in                            (* 456, 461 *)
  let! my := dist_copy m r (Some (e_boss e r)) in
  let! _ := wavegrids m r None in                                          (* 466 *)
  let! _ := elapsed m in                                                   (* 468 *)
  let! nt := load_templates m r false in
  let! _ := elapsed m in                                                   (* 479 *)
  let! _ := zfind_calls m r false false (b_scan o) my nt in
  let! _ := elapsed m in                                                   (* 485 *)
  let! _ := (if b_output o then let! _ := elapsed m in let! _ := root r (local r 492 0) in elapsed m else Ret tt) in
  if b_zbest o then let! _ := elapsed m in let! _ := root r (local r 498 0) in elapsed m else Ret tt.
(* boss.py 303, 369-529 *)
Definition rrboss_rank (o : bopts) (P r : nat) : prog unit :=
  let! _ := elapsed P in
  let! _ := root r (boss_checks o P) in
  let! _ := (if b_ids_parse o then Ret tt else Raise ValueError) in        (* 401 *)
  let! _ := catch (boss_try o P r) (fun x => if b_noabort o then Raise x else Abort) in
  elapsed P.                                                               (* 529 *)
End Ranks.
