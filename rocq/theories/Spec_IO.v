(* Independent vocabulary for names and files. *)
From Coq Require Import String Ascii List Bool ZArith.
Import ListNotations.
Local Open Scope string_scope.
(* s occurs in t *)
Definition occurs (s t : string) : Prop := exists a b, t = a ++ s ++ b.
(* t ends with a colon *)
Definition ends_colon (t : string) : Prop := exists a, t = a ++ ":".
(* white space around a name *)
Definition white (c : ascii) : Prop := In (nat_of_ascii c) [9;10;11;12;13;28;29;30;31;32;133;160]%nat.
Definition trimmed (t : string) : Prop :=
  (forall c r, t = String c r -> ~ white c) /\ (forall a c, t = a ++ String c "" -> ~ white c).
(* a usable spectype or subtype *)
Definition name_ok (t : string) : Prop := trimmed t /\ ~ occurs ":::" t.
(* a file either absent/old or complete *)
Definition atomic_at {B} (old now : option (list B)) (new : list B) : Prop := now = old \/ now = Some new.

(* ---- the details file ---- *)
From Verif Require Import Prelude Model_Dist Model_IO.
(* results as zfind returns them: one best row per target, every target of the table has a scan
   for the same list of types on the same grid, every row has one of these types *)
Record details_ok {P} (zs : zscan_t) (zfit : list (frow P)) (ids : list Z) (types : list string) : Prop := {
  do_ids : map f_tid (filter (fun r => (f_znum r =? 0)%Z) zfit) = ids;
  do_nodup : NoDup ids;
  do_some : ids <> [];
  do_rows : forall r, In r zfit -> In (f_tid r) ids /\ (0 <= f_znum r < 128)%Z /\ In (make_fulltype (f_type r) (Some (f_sub r))) types;
  do_names : forall r r', In r zfit -> In r' zfit -> make_fulltype (f_type r) (Some (f_sub r)) = make_fulltype (f_type r') (Some (f_sub r')) ->
      f_type r = f_type r' /\ f_sub r = f_sub r';
  do_types : forall ft, In ft types -> exists st, parse_fulltype ft = Ok st;
  do_scans : forall t, In t ids -> exists d, dget zs t = Some d /\ NoDup (map fst d) /\ forall ft, In ft (map fst d) <-> In ft types;
  do_grid : forall t t' ft s s', In t ids -> In t' ids -> entry zs t ft = Ok s -> entry zs t' ft = Ok s' ->
      sc_z s = sc_z s' /\ length (sc_chi2 s) = length (sc_chi2 s') /\ length (sc_pen s) = length (sc_pen s') /\ map (@length Q) (sc_coeff s) = map (@length Q) (sc_coeff s') }.
(* the precision of the file *)
Definition lower (f32 : Q -> Q) (s : scan) : scan :=
  {| sc_z := sc_z s; sc_chi2 := map f32 (sc_chi2 s); sc_pen := map f32 (sc_pen s); sc_coeff := map (map f32) (sc_coeff s) |}.
Definition lower_row {P} (cast : P -> P) (r : frow P) : frow P :=
  {| f_tid := f_tid r; f_znum := f_znum r; f_type := f_type r; f_sub := f_sub r; f_pay := cast (f_pay r) |}.
(* the rows of one target and type *)
Definition rows_for {P} (t : Z) (ft : string) (zf : list (frow P)) : list (frow P) :=
  filter (fun r => (f_tid r =? t)%Z && String.eqb (make_fulltype (f_type r) (Some (f_sub r))) ft) zf.
Definition some_rows {A} (l : list A) : option (list A) := match l with [] => None | _ => Some l end.
(* two histories of a write: what is done up to a crash *)
Definition crash_point {X} (ops pre : list X) : Prop := exists post, ops = pre ++ post.
(* last path component without a directory part *)
Definition has_slash (t : string) : Prop := occurs "/" t.
(* find_templates: lines of the list that name a file *)
Definition names_file (line : string) : Prop := strip line <> "" /\ String.prefix "#" (strip line) = false.
