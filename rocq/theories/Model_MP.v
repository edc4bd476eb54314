(* The multiprocessing branches: the scan stage (zscan.py 1037-1094) and the fit
   stage (zfind.py 364-399), as a transition system with all interleavings.
   multiprocessing.Queue is modelled as a bag: get may return any element
   present (this covers every arrival order).  The work done for one target is a
   function [f] that returns a value or raises. *)
From Verif Require Import Prelude Model_Dist.

Inductive wstate (D V : Type) :=
| WNone                                          (* mpdist[i] empty: not started, zscan.py 1054, zfind.py 376 *)
| WRun (todo : list (tgt D)) (acc : list V)      (* inside calc_zchi2 / _mp_fitz *)
| WEnd (acc : list V)                            (* result was put on qout *)
| WFail (acc : list V).                                    (* exception caught and printed, nothing put, zscan.py 902-907, zfind.py 96-101 *)
Arguments WNone {D V}. Arguments WRun {D V}. Arguments WEnd {D V}. Arguments WFail {D V}.

Inductive pstate (V : Type) :=
| PProg (tot : nat)                              (* zscan.py 1072-1079 *)
| POut (k : nat) (d : dict V)                    (* k results still expected, zscan.py 1085-1091, zfind.py 391-396 *)
| PEnd (d : dict V).                             (* joined, zscan.py 1093, zfind.py 398 *)
Arguments PProg {V}. Arguments POut {V}. Arguments PEnd {V}.

Record mpst (D V : Type) := { m_w : nat -> wstate D V; m_prog : nat; m_out : list (nat * list V); m_par : pstate V }.
Arguments m_w {D V}. Arguments m_prog {D V}. Arguments m_out {D V}. Arguments m_par {D V}. Arguments Build_mpst {D V}.

(* zscan.py 1088-1089: zip the ids of mpdist[i] with the rows received *)
Definition store {V} (keys : list Z) (vals : list V) (d : dict V) : dict V :=
  fold_left (fun acc kv => dset acc (fst kv) (snd kv)) (combine keys vals) d.

Section MP.
Context {D V : Type}.
Variables (f : tgt D -> res V) (data : list (list (tgt D))) (keys : list (list Z)) (withprog : bool).

Definition nprocs := length (filter (fun l => match l with [] => false | _ => true end) data).
Definition ntarget := length (concat data).

Definition mp_init : mpst D V :=
  {| m_w := fun i => match nth i data [] with [] => WNone | l => WRun l [] end;
     m_prog := 0; m_out := []; m_par := if withprog then PProg 0 else POut nprocs [] |}.

Definition wupd (w : nat -> wstate D V) i x := fun k => if k =? i then x else w k.

Inductive mp_step (s : mpst D V) : mpst D V -> Prop :=
| M_work i t ts acc v : i < length data -> m_w s i = WRun (t :: ts) acc -> f t = Ok v ->
    mp_step s {| m_w := wupd (m_w s) i (WRun ts (acc ++ [v]));
                 m_prog := if withprog then S (m_prog s) else m_prog s;   (* zscan.py 887 *)
                 m_out := m_out s; m_par := m_par s |}
| M_fail i t ts acc e : i < length data -> m_w s i = WRun (t :: ts) acc -> f t = Err e ->
    mp_step s {| m_w := wupd (m_w s) i (WFail acc); m_prog := m_prog s; m_out := m_out s; m_par := m_par s |}
| M_put i acc : i < length data -> m_w s i = WRun [] acc ->
    mp_step s {| m_w := wupd (m_w s) i (WEnd acc); m_prog := m_prog s;
                 m_out := (i, acc) :: m_out s; m_par := m_par s |}
| M_getprog tot p : m_par s = PProg tot -> tot < ntarget -> m_prog s = S p ->
    mp_step s {| m_w := m_w s; m_prog := p; m_out := m_out s; m_par := PProg (S tot) |}
| M_progdone tot : m_par s = PProg tot -> ntarget <= tot ->
    mp_step s {| m_w := m_w s; m_prog := m_prog s; m_out := m_out s; m_par := POut nprocs [] |}
| M_getout k d i vals q1 q2 : m_par s = POut (S k) d -> m_out s = q1 ++ (i, vals) :: q2 ->
    mp_step s {| m_w := m_w s; m_prog := m_prog s; m_out := q1 ++ q2;
                 m_par := POut k (store (nth i keys []) vals d) |}
| M_join d : m_par s = POut 0 d ->
    (forall i, i < length data -> match m_w s i with WRun _ _ => False | _ => True end) ->
    mp_step s {| m_w := m_w s; m_prog := m_prog s; m_out := m_out s; m_par := PEnd d |}.

Inductive mp_steps : nat -> mpst D V -> mpst D V -> Prop :=
| MS_0 s : mp_steps 0 s s
| MS_S k s s' s'' : mp_steps k s s' -> mp_step s' s'' -> mp_steps (S k) s s''.
End MP.

(* zscan.py 1054-1057, zfind.py 376-378: target_data keeps the order of
   targets.local(), whatever the order of mpdist[i] *)
Definition worker_data {D} (local : list (tgt D)) (ids : list Z) : list (tgt D) :=
  filter (fun t => existsb (Z.eqb (t_id t)) ids) local.

(* what the two stages hand to the system above:
   scan: keys are mpdist[i] (zscan.py 1087); fit: each result carries its own
   target id (zfind.py 94 and 395-396), i.e. keys are the ids of the data *)
Definition scan_config {D} (local : list (tgt D)) (nproc : nat) : res (list (list (tgt D)) * list (list Z)) :=
  do mpdist <- distribute_targets local nproc;
  Ok (map (worker_data local) mpdist, mpdist).
Definition fit_config {D} (local : list (tgt D)) (nproc : nat) : res (list (list (tgt D)) * list (list Z)) :=
  do mpdist <- distribute_targets local nproc;
  Ok (map (worker_data local) mpdist, map (fun l => map t_id (worker_data local l)) mpdist).
