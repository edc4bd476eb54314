(* The names inside the details file: write_zscan (results.py 73-94) and read_zscan / read_zscan_redrock / read_zfit (results.py 128-153, 196-197, 224-239) on the paths of
   an HDF5 file.  Simplifications: a file is the list of its datasets with their paths, in order of creation (groups are what has datasets below); what a dataset holds is one
   value (Model_IO.v has the contents); HDF5 knows no '..'; the rows of zfit are one value per target, target ids are given by their decimal strings. *)
From Verif Require Import Prelude Model_IO Model_Arch.
Local Open Scope string_scope.
Section H5.
Context {D : Type}.
Definition h5file := list (list string * D).
(* HDF5 path names: components between '/'; empty ones and "." mean the group itself *)
Definition components (name : string) : list string := filter (fun c => negb (String.eqb c "" || String.eqb c ".")) (Model_IO.split "/" name).
Fixpoint is_prefix (a b : list string) : bool :=
  match a, b with [], _ => true | x :: a', y :: b' => String.eqb x y && is_prefix a' b' | _ :: _, [] => false end.
(* h5py: fx[name] = data makes the groups on the way; an error if the name exists, or something on the way is a dataset *)
Definition create (f : h5file) (name : string) (d : D) : res h5file :=
  let p := components name in
  if existsb (fun e => is_prefix p (fst e) || is_prefix (fst e) p) f then Err ValueError else Ok (f ++ [(p, d)])%list.
Fixpoint create_all (f : h5file) (l : list (string * D)) : res h5file :=
  match l with [] => Ok f | (n, d) :: r => do f' <- create f n d; create_all f' r end.
(* h5py: fx[name][()]: TypeError for a group, KeyError for nothing *)
Definition fetch (f : h5file) (name : string) : res D :=
  let p := components name in
  match find (fun e => if list_eq_dec string_dec p (fst e) then true else false) f with
  | Some e => Ok (snd e)
  | None => if existsb (fun e => is_prefix p (fst e)) f then Err TypeError else Err KeyError
  end.
(* h5py: fx[name].keys(): the next components, in name order; KeyError for nothing, AttributeError for a dataset *)
Definition keys (f : h5file) (name : string) : res (list string) :=
  let p := components name in
  match flat_map (fun e : list string * D => if is_prefix p (fst e) then match skipn (length p) (fst e) with k :: _ => [k] | [] => [] end else []) f with
  | [] => if existsb (fun e => is_prefix p (fst e)) f then Err AttributeError else Err KeyError
  | ks => Ok (isort String.leb (nodup string_dec ks))
  end.
Record group := { h_chi2 : D; h_pen : D; h_coeff : D; h_z : D }.
(* results.py 73-94: targetids, zbest, zscan (a fulltype after the other), zfit (a target after the other) *)
Definition group_writes (g : string * group) : list (string * D) :=
  [("zscan/" ++ fst g ++ "/zchi2", h_chi2 (snd g)); ("zscan/" ++ fst g ++ "/penalty", h_pen (snd g)); ("zscan/" ++ fst g ++ "/zcoeff", h_coeff (snd g)); ("zscan/" ++ fst g ++ "/redshifts", h_z (snd g))].
Definition fit_write (x : string * D) : string * D := ("zfit/" ++ fst x ++ "/zfit", snd x).
Definition write_details (ids zbest : D) (gs : list (string * group)) (fits : list (string * D)) : res h5file :=
  create_all [] (("targetids", ids) :: ("zbest", zbest) :: (flat_map group_writes gs ++ map fit_write fits)%list).
(* results.py 130, 142-149; 226-233 *)
Definition read_groups (f : h5file) : res (list (string * group)) :=
  do ks <- keys f "zscan";
  mapM (fun k => do c <- fetch f ("/zscan/" ++ k ++ "/zchi2"); do p <- fetch f ("/zscan/" ++ k ++ "/penalty"); do o <- fetch f ("/zscan/" ++ k ++ "/zcoeff");
                 do z <- fetch f ("/zscan/" ++ k ++ "/redshifts"); Ok (k, {| h_chi2 := c; h_pen := p; h_coeff := o; h_z := z |})) ks.
(* results.py 197 *)
Definition read_fit (f : h5file) (t : string) : res D := fetch f ("zfit/" ++ t ++ "/zfit").
End H5.
(* f'{targetid}' of an integer *)
Definition id_name (z : Z) : string := if Z.ltb z 0 then "-" ++ Model_Arch.dec (Z.to_nat (- z)) else Model_Arch.dec (Z.to_nat z).
Arguments group : clear implicits.
Arguments h5file : clear implicits.
