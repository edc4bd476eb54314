(* Message-passing parts: the template ring (templates.py 613-663, zscan.py
   998-1036) and the batched gather (zfind.py 416-462).  Small-step semantics,
   one step per communication call, all interleavings.  MPI is modelled as FIFO
   channels per (source, destination) pair. *)
From Verif Require Import Prelude Model_Dist.

Definition upd {A} (f : nat -> A) (r : nat) (x : A) : nat -> A :=
  fun k => if k =? r then x else f k.

(* ---------------- the template ring ---------------- *)
(* A piece is identified by (template number, DistTemplatePiece.index). *)
Definition piece := (nat * nat)%type.

Inductive phase :=
| PCompute                   (* about to run calc_zchi2 on the held piece, zscan.py 1005-1019 *)
| PRecv                      (* isend posted, blocked in comm.recv, templates.py 643-647 *)
| PWait (incoming : piece)   (* received, blocked in req.wait, templates.py 651 *)
| PDone.                     (* left the loop of the last template *)

Record rk := { k_hold : piece; k_phase : phase; k_log : list piece }.

(* templates.py 633-639 *)
Definition to_proc (P r : nat) := if P <=? r + 1 then 0 else r + 1.
Definition from_proc (P r : nat) := if r =? 0 then P - 1 else r - 1.

(* chan r: messages sent by from_proc r and not yet received by r *)
Record ring := { g_rk : nat -> rk; g_chan : nat -> list piece }.

(* every rank starts with its own piece of template 0; T = number of templates *)
Definition ring_init (T : nat) : ring :=
  {| g_rk := fun r => {| k_hold := (0, r); k_phase := if T =? 0 then PDone else PCompute; k_log := [] |};
     g_chan := fun _ => [] |}.

(* templates.py 655-663 then zscan.py 1031: replace the piece; done iff its
   index is our rank; when done go on with our own piece of the next template
   (zscan.py 958), or stop after the last one. *)
Definition after_wait (T r : nat) (m : piece) (log : list piece) : rk :=
  if snd m =? r then
    if S (fst m) <? T then {| k_hold := (S (fst m), r); k_phase := PCompute; k_log := log |}
    else {| k_hold := m; k_phase := PDone; k_log := log |}
  else {| k_hold := m; k_phase := PCompute; k_log := log |}.

(* eager = true: isend completes at once (buffered); eager = false: req.wait
   returns only after the receiver took the message. *)
Inductive ring_step (P T : nat) (eager : bool) (s : ring) : ring -> Prop :=
| R_compute r : r < P -> k_phase (g_rk s r) = PCompute ->
    ring_step P T eager s
      {| g_rk := upd (g_rk s) r {| k_hold := k_hold (g_rk s r); k_phase := PRecv;
                                   k_log := k_log (g_rk s r) ++ [k_hold (g_rk s r)] |};
         g_chan := upd (g_chan s) (to_proc P r) (g_chan s (to_proc P r) ++ [k_hold (g_rk s r)]) |}
| R_recv r m rest : r < P -> k_phase (g_rk s r) = PRecv -> g_chan s r = m :: rest ->
    ring_step P T eager s
      {| g_rk := upd (g_rk s) r {| k_hold := k_hold (g_rk s r); k_phase := PWait m; k_log := k_log (g_rk s r) |};
         g_chan := upd (g_chan s) r rest |}
| R_wait r m : r < P -> k_phase (g_rk s r) = PWait m ->
    (eager = true \/ g_chan s (to_proc P r) = []) ->
    ring_step P T eager s
      {| g_rk := upd (g_rk s) r (after_wait T r m (k_log (g_rk s r))); g_chan := g_chan s |}.

Inductive ring_steps (P T : nat) (eager : bool) : nat -> ring -> ring -> Prop :=
| RS_0 s : ring_steps P T eager 0 s s
| RS_S k s s' s'' : ring_steps P T eager k s s' -> ring_step P T eager s' s'' ->
    ring_steps P T eager (S k) s s''.

Definition ring_finished (P : nat) (s : ring) : Prop := forall r, r < P -> k_phase (g_rk s r) = PDone.

(* ---------------- assembling one target's chi2 for one template ---------------- *)
(* zscan.py 1010-1019: zchi2[tid][t.local.index] = tzchi2[i], once per processed
   piece.  f is the chi2 of the target at one redshift; slices are the pieces'
   redshifts. *)
Fixpoint kset {V} (d : list (nat * V)) (k : nat) (v : V) : list (nat * V) :=
  match d with
  | [] => [(k, v)]
  | (k', v') :: r => if k' =? k then (k, v) :: r else (k', v') :: kset r k v
  end.
Fixpoint kget {V} (d : list (nat * V)) (k : nat) : option V :=
  match d with [] => None | (k', v) :: r => if k' =? k then Some v else kget r k end.
Definition scan_dict {A V} (f : A -> V) (slices : list (list A)) (idxs : list nat) : list (nat * list V) :=
  fold_left (fun d i => kset d i (map f (nth i slices []))) idxs [].
(* zscan.py 1033-1034: np.concatenate over sorted keys *)
Definition assemble {V} (d : list (nat * list V)) : list V :=
  concat (map (fun k => match kget d k with Some v => v | None => [] end) (isort Nat.leb (map fst d))).
(* the processed indices of template t *)
Definition idxs_of (t : nat) (log : list piece) : list nat :=
  map snd (filter (fun p : piece => fst p =? t) log).

(* ---------------- batched gather ---------------- *)
Inductive msg (V : Type) := MCount (n : nat) | MDict (d : dict V).
Arguments MCount {V}. Arguments MDict {V}.

(* zfind.py 438-452: the messages a rank > 0 sends, maxb = 5000 in the code.
   range(0, len, maxb) has ceil(len/maxb) elements. *)
Definition sender_msgs {V} (maxb : nat) (results : dict V) : list (msg V) :=
  let n := length results in
  if n <? maxb then [MCount 1; MDict results]
  else MCount ((n - 1) / maxb + 1) ::
       map (fun k => MDict (firstn maxb (skipn (k * maxb) results))) (seq 0 ((n + maxb - 1) / maxb)).

(* zfind.py 422-434: rank 0, receiving from rank x_rank *)
Inductive rxphase (V : Type) := WaitCount | WaitBatch (k : nat) (acc : dict V).
Arguments WaitCount {V}. Arguments WaitBatch {V}.
Record rx (V : Type) := { x_rank : nat; x_phase : rxphase V; x_out : list (dict V) }.
Arguments x_rank {V}. Arguments x_phase {V}. Arguments x_out {V}. Arguments Build_rx {V}.

(* None: the received object has the wrong type and rank 0 raises *)
Definition rx_take {V} (x : rx V) (m : msg V) : option (rx V) :=
  match x_phase x, m with
  | WaitCount, MCount 0 => Some {| x_rank := S (x_rank x); x_phase := WaitCount; x_out := x_out x ++ [[]] |}
  | WaitCount, MCount (S k) => Some {| x_rank := x_rank x; x_phase := WaitBatch (S k) []; x_out := x_out x |}
  | WaitBatch k acc, MDict d =>
      let acc' := dupdate acc d in
      match k with
      | S (S k') => Some {| x_rank := x_rank x; x_phase := WaitBatch (S k') acc'; x_out := x_out x |}
      | _ => Some {| x_rank := S (x_rank x); x_phase := WaitCount; x_out := x_out x ++ [acc'] |}
      end
  | _, _ => None
  end.

Record gst (V : Type) := { s_todo : nat -> list (msg V); s_chan : nat -> list (msg V); s_rx : rx V }.
Arguments s_todo {V}. Arguments s_chan {V}. Arguments s_rx {V}. Arguments Build_gst {V}.

Definition gather_init {V} (maxb : nat) (ress : list (dict V)) : gst V :=
  {| s_todo := fun r => sender_msgs maxb (nth r ress []); s_chan := fun _ => [];
     s_rx := {| x_rank := 1; x_phase := WaitCount; x_out := [] |} |}.

(* cap: how many messages a channel buffers; cap = 0 is fully synchronous send *)
Inductive gstep {V} (P cap : nat) (s : gst V) : gst V -> Prop :=
| G_send r m ms : 1 <= r -> r < P -> s_todo s r = m :: ms -> length (s_chan s r) < cap ->
    gstep P cap s {| s_todo := upd (s_todo s) r ms; s_chan := upd (s_chan s) r (s_chan s r ++ [m]); s_rx := s_rx s |}
| G_recv m ms x' : x_rank (s_rx s) < P -> s_chan s (x_rank (s_rx s)) = m :: ms ->
    rx_take (s_rx s) m = Some x' ->
    gstep P cap s {| s_todo := s_todo s; s_chan := upd (s_chan s) (x_rank (s_rx s)) ms; s_rx := x' |}
| G_rendezvous m ms x' : x_rank (s_rx s) < P -> s_chan s (x_rank (s_rx s)) = [] ->
    s_todo s (x_rank (s_rx s)) = m :: ms -> rx_take (s_rx s) m = Some x' ->
    gstep P cap s {| s_todo := upd (s_todo s) (x_rank (s_rx s)) ms; s_chan := s_chan s; s_rx := x' |}.

Inductive gsteps {V} (P cap : nat) : nat -> gst V -> gst V -> Prop :=
| GS_0 s : gsteps P cap 0 s s
| GS_S k s s' s'' : gsteps P cap k s s' -> gstep P cap s' s'' -> gsteps P cap (S k) s s''.

(* every rank reached the barrier (zfind.py 454) *)
Definition gather_finished {V} (P : nat) (s : gst V) : Prop :=
  P <= x_rank (s_rx s) /\ forall r, 1 <= r -> r < P -> s_todo s r = [].

(* zfind.py 423, 434, 458-461: merge on rank 0 *)
Definition allresults {V} (own : dict V) (s : gst V) : dict V :=
  fold_left dupdate (own :: x_out (s_rx s)) [].

(* ---------------- the two stages together ---------------- *)
(* zscan.py 955-1036 then zfind.py 400-414: what rank r holds for its local
   targets before the gather.  chi2 x t z is the scan of target x with template
   t at redshift z; fit is everything done afterwards with the assembled arrays
   of one target (fitz per template and the ranking), a function of that
   target's arrays only.  Template t has redshifts zs t, split by
   templates.py 571. *)
Definition rank_results {D Z' C V} (T P : nat) (zs : nat -> list Z') (chi2 : tgt D -> nat -> Z' -> C)
    (fit : tgt D -> list (list C) -> V) (local : list (tgt D)) (log : list piece) : res (dict V) :=
  do sl <- mapM (fun t => array_split (zs t) P) (seq 0 T);
  Ok (map (fun x => (t_id x, fit x (map (fun t =>
        assemble (scan_dict (chi2 x t) (nth t sl []) (idxs_of t log))) (seq 0 T)))) local).

(* zscan.py 960-997 (no comm, one process) *)
Definition serial_results {D Z' C V} (T : nat) (zs : nat -> list Z') (chi2 : tgt D -> nat -> Z' -> C)
    (fit : tgt D -> list (list C) -> V) (targets : list (tgt D)) : dict V :=
  map (fun x => (t_id x, fit x (map (fun t => map (chi2 x t) (zs t)) (seq 0 T)))) targets.
