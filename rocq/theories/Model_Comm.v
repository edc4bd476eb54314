(* Processes of an MPI job that meet in collective calls: the programs, and their executions in every order.
   mpi4py calls modelled: barrier (utils.py 87), bcast, allgather, gather, Split, and the two point to point patterns of the code as one call each:
   isend to the next rank with recv from the one before (templates.py 641-651, Shift; C20) and the batched sends to rank 0 (zfind.py 422-452,
   Gather; C14).  A communicator is the first m ranks of the job (all there is in the code: desi.py 796-806 keeps the first ranks). *)
From Verif Require Import Prelude.
Open Scope nat_scope.

(* messages *)
Inductive val := VU | VN (n : nat) | VB (b : bool) | VIds (l : list Z) | VBands (l : list string) | VL (l : list val).
Inductive kind := Barrier | Bcast (root : nat) | Allgather | Gather (root : nat) | Split | Shift.

(* what one process does: return, raise an exception, comm.Abort(), or a collective call on the first m ranks with its own contribution *)
Inductive prog (A : Type) : Type :=
| Ret (a : A) | Raise (e : exn) | Abort | Coll (m : nat) (k : kind) (v : val) (c : val -> prog A).
Arguments Ret {A}. Arguments Raise {A}. Arguments Abort {A}. Arguments Coll {A}.
Fixpoint bind {A B} (p : prog A) (f : A -> prog B) : prog B :=
  match p with Ret a => f a | Raise e => Raise e | Abort => Abort | Coll m k v c => Coll m k v (fun x => bind (c x) f) end.
Notation "'let!' x := m 'in' k" := (bind m (fun x => k)) (at level 200, x name, right associativity).
(* try: ... except Exception as err: ... *)
Fixpoint catch {A} (p : prog A) (h : exn -> prog A) : prog A :=
  match p with Ret a => Ret a | Raise e => h e | Abort => Abort | Coll m k v c => Coll m k v (fun x => catch (c x) h) end.
Definition call (m : nat) (k : kind) (v : val) : prog val := Coll m k v Ret.
(* for x in l: p x *)
Fixpoint foreach {X} (l : list X) (p : X -> prog unit) : prog unit :=
  match l with [] => Ret tt | x :: r => let! _ := p x in foreach r p end.

(* ---------------- executions ---------------- *)
(* calls made so far: of the n-th call of every rank, the communicator, the kind and the contribution *)
Definition row := nat -> option (nat * kind * val).
Record st := { code : nat -> prog unit;      (* what is left to do *)
               pos : nat -> nat;             (* calls completed *)
               waiting : nat -> bool;        (* inside a call *)
               hist : nat -> row;
               aborted : bool }.
Definition upd {A} (f : nat -> A) (r : nat) (a : A) : nat -> A := fun j => if j =? r then a else f j.
Definition init (p : nat -> prog unit) : st := {| code := p; pos := fun _ => 0; waiting := fun _ => false; hist := fun _ _ => None; aborted := false |}.

Definition kind_eqb (a b : kind) : bool :=
  match a, b with
  | Barrier, Barrier | Allgather, Allgather | Split, Split | Shift, Shift => true
  | Bcast x, Bcast y | Gather x, Gather y => x =? y
  | _, _ => false
  end.
(* contribution of rank j to the call (m, k), if it has made it *)
Definition given (m : nat) (k : kind) (h : row) (j : nat) : option val :=
  match h j with Some (m', k', v) => if (m' =? m) && kind_eqb k' k then Some v else None | None => None end.
Fixpoint collect (l : list (option val)) : option (list val) :=
  match l with [] => Some [] | Some v :: r => match collect r with Some vs => Some (v :: vs) | None => None end | None :: _ => None end.
Definition everyone (m : nat) (k : kind) (h : row) : option (list val) := collect (map (given m k h) (seq 0 m)).
(* the result of a call as soon as the data it needs are there: an MPI library may return then, or wait for the other ranks *)
Definition result (m : nat) (k : kind) (h : row) (r : nat) : option val :=
  match k with
  | Barrier => match everyone m k h with Some _ => Some VU | None => None end
  | Bcast root => given m k h root
  | Allgather | Split => match everyone m k h with Some l => Some (VL l) | None => None end
  | Gather root => if r =? root then match everyone m k h with Some l => Some (VL l) | None => None end else Some VU
  | Shift => given m k h (if r =? 0 then m - 1 else r - 1)
  end.

Inductive step (P : nat) (s : st) : st -> Prop :=
| s_call r m k v c : aborted s = false -> r < P -> code s r = Coll m k v c -> waiting s r = false ->
    step P s {| code := code s; pos := pos s; waiting := upd (waiting s) r true;
                hist := upd (hist s) (pos s r) (upd (hist s (pos s r)) r (Some (m, k, v))); aborted := false |}
| s_return r m k v c x : aborted s = false -> r < P -> code s r = Coll m k v c -> waiting s r = true -> result m k (hist s (pos s r)) r = Some x ->
    step P s {| code := upd (code s) r (c x); pos := upd (pos s) r (S (pos s r)); waiting := upd (waiting s) r false; hist := hist s; aborted := false |}
| s_abort r : aborted s = false -> r < P -> code s r = Abort ->
    step P s {| code := code s; pos := pos s; waiting := waiting s; hist := hist s; aborted := true |}.
Inductive steps (P : nat) : st -> st -> Prop := st_0 s : steps P s s | st_S s s' s'' : steps P s s' -> step P s' s'' -> steps P s s''.

(* the process is over, by itself or by an exception *)
Definition over (p : prog unit) : Prop := match p with Ret _ | Raise _ => True | _ => False end.
Definition ended (P : nat) (s : st) : Prop := aborted s = true \/ forall r, r < P -> over (code s r).
(* a step that MPI guarantees: a call can be made, a call made by all ranks of the communicator returns, an abort takes place *)
Definition must (s : st) (r : nat) : Prop :=
  match code s r with
  | Coll m k _ _ => waiting s r = false \/ (exists l, everyone m k (hist s (pos s r)) = Some l)
  | Abort => True
  | _ => False
  end.
(* some process is not over and none is sure to move *)
Definition hung (P : nat) (s : st) : Prop := ~ ended P s /\ forall r, r < P -> ~ must s r.
