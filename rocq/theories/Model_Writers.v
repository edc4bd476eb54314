(* Runs that write one output file while others read it: the calls of write_zbest / write_bestmodel / write_zscan (external/desi.py 144-151 and 192-199,
   external/boss.py 74-77, results.py 72-97) on a POSIX file system with inodes: a name leads to an inode, an open file stays with its inode.
   Simplifications: a file is a list of blocks, written one after the other at the position of the writer and read likewise; rename and each block are atomic; one
   output name, readers open nothing else; nobody else uses the directory; a run that crashes does nothing more (its temporary file stays). *)
From Verif Require Import Prelude.
Open Scope nat_scope.
Section W.
Context {B : Type}.
Inductive phase := ToCreate | Writing (i pos : nat) (left : list B).
Record writer := { w_tmp : string; w_blocks : list B; w_at : phase }.
Record reader := { r_inode : nat; r_got : list B }.
(* sy_runs: contents that were to be written, sy_seen: what readers that came to the end have read *)
Record system := { sy_dir : string -> option nat; sy_data : nat -> list B; sy_next : nat; sy_ws : list writer; sy_rs : list reader; sy_runs : list (list B); sy_seen : list (list B) }.
Definition dir_set (d : string -> option nat) (p : string) (v : option nat) : string -> option nat := fun q => if String.eqb p q then v else d q.
Definition data_set (d : nat -> list B) (i : nat) (c : list B) : nat -> list B := fun j => if i =? j then c else d j.
Definition put (pos : nat) (b : B) (c : list B) : list B := firstn pos c ++ b :: skipn (S pos) c.
Definition with_fs (s : system) d c n ws := {| sy_dir := d; sy_data := c; sy_next := n; sy_ws := ws; sy_rs := sy_rs s; sy_runs := sy_runs s; sy_seen := sy_seen s |}.
Definition with_rs (s : system) rs seen := {| sy_dir := sy_dir s; sy_data := sy_data s; sy_next := sy_next s; sy_ws := sy_ws s; sy_rs := rs; sy_runs := sy_runs s; sy_seen := seen |}.
(* may ws t: a run that uses the temporary name t may begin while the runs ws go on *)
(* clobber: runs may remove the output file before they write (results.py 39-40) *)
Inductive step (file : string) (may : list writer -> string -> Prop) (clobber : bool) : system -> system -> Prop :=
| SBegin s t blocks : may (sy_ws s) t ->
    step file may clobber s {| sy_dir := sy_dir s; sy_data := sy_data s; sy_next := sy_next s; sy_ws := {| w_tmp := t; w_blocks := blocks; w_at := ToCreate |} :: sy_ws s; sy_rs := sy_rs s;
                       sy_runs := blocks :: sy_runs s; sy_seen := sy_seen s |}
| SRemove s l t blocks r : clobber = true -> sy_ws s = l ++ {| w_tmp := t; w_blocks := blocks; w_at := ToCreate |} :: r ->
    step file may clobber s (with_fs s (dir_set (sy_dir s) file None) (sy_data s) (sy_next s) (sy_ws s))
(* hx.writeto(tempfile, overwrite=True), h5py.File(tempfile, 'w'): an existing file is truncated *)
| STrunc s l t blocks r i : sy_ws s = l ++ {| w_tmp := t; w_blocks := blocks; w_at := ToCreate |} :: r -> sy_dir s t = Some i ->
    step file may clobber s (with_fs s (sy_dir s) (data_set (sy_data s) i []) (sy_next s) (l ++ {| w_tmp := t; w_blocks := blocks; w_at := Writing i 0 blocks |} :: r))
| SCreate s l t blocks r : sy_ws s = l ++ {| w_tmp := t; w_blocks := blocks; w_at := ToCreate |} :: r -> sy_dir s t = None ->
    step file may clobber s (with_fs s (dir_set (sy_dir s) t (Some (sy_next s))) (data_set (sy_data s) (sy_next s) []) (S (sy_next s)) (l ++ {| w_tmp := t; w_blocks := blocks; w_at := Writing (sy_next s) 0 blocks |} :: r))
| SWrite s l t blocks r i pos b left : sy_ws s = l ++ {| w_tmp := t; w_blocks := blocks; w_at := Writing i pos (b :: left) |} :: r ->
    step file may clobber s (with_fs s (sy_dir s) (data_set (sy_data s) i (put pos b (sy_data s i))) (sy_next s) (l ++ {| w_tmp := t; w_blocks := blocks; w_at := Writing i (S pos) left |} :: r))
(* os.rename(tempfile, outfile); an error if the temporary file is gone *)
| SRename s l t blocks r i pos : sy_ws s = l ++ {| w_tmp := t; w_blocks := blocks; w_at := Writing i pos [] |} :: r ->
    step file may clobber s (with_fs s (match sy_dir s t with Some j => dir_set (dir_set (sy_dir s) file (Some j)) t None | None => sy_dir s end) (sy_data s) (sy_next s) (l ++ r))
| SCrash s l w r : sy_ws s = l ++ w :: r -> step file may clobber s (with_fs s (sy_dir s) (sy_data s) (sy_next s) (l ++ r))
| SOpen s i : sy_dir s file = Some i -> step file may clobber s (with_rs s ({| r_inode := i; r_got := [] |} :: sy_rs s) (sy_seen s))
| SRead s l i got r b : sy_rs s = l ++ {| r_inode := i; r_got := got |} :: r -> nth_error (sy_data s i) (length got) = Some b ->
    step file may clobber s (with_rs s (l ++ {| r_inode := i; r_got := got ++ [b] |} :: r) (sy_seen s))
| SDone s l i got r : sy_rs s = l ++ {| r_inode := i; r_got := got |} :: r -> nth_error (sy_data s i) (length got) = None ->
    step file may clobber s (with_rs s (l ++ r) (got :: sy_seen s)).
Inductive steps (file : string) (may : list writer -> string -> Prop) (clobber : bool) : system -> system -> Prop :=
| Same s : steps file may clobber s s
| More s s' s'' : steps file may clobber s s' -> step file may clobber s' s'' -> steps file may clobber s s''.
(* before the first run: the output file may exist, and temporary files of crashed runs may have stayed; different names, different inodes (no hard links) *)
Definition fresh (s : system) : Prop :=
  sy_ws s = [] /\ sy_rs s = [] /\ sy_runs s = [] /\ sy_seen s = [] /\ (forall p i, sy_dir s p = Some i -> i < sy_next s) /\ (forall p q i, sy_dir s p = Some i -> sy_dir s q = Some i -> p = q).
(* the content under the output name *)
Definition content (s : system) (file : string) : option (list B) := option_map (sy_data s) (sy_dir s file).
End W.
Arguments writer : clear implicits.
Arguments system : clear implicits.
