(* C184: find_archetypes lists the archetype files of a place. *)
From Verif Require Import Prelude PreludeFacts Model_IO Model_FindArch Spec_FindArch Proof_FindArch.
Open Scope nat_scope.
Local Open Scope string_scope.

(* A file is taken as it is; without a place the directory is that of $RR_ARCHETYPE_DIR, else that of the code, else there is an error. *)
Theorem C184_file_or_default : forall fs,
  (forall f, af_isfile fs f = true -> find_archetypes fs (Some f) = Ok [f]) /\
  (forall d, af_env fs "RR_ARCHETYPE_DIR" = Some d -> exists l, find_archetypes fs None = Ok l /\ in_name_order l /\ Permutation l (glob fs d)) /\
  (forall d, af_env fs "RR_ARCHETYPE_DIR" = None -> af_pkg fs = Some d -> exists l, find_archetypes fs None = Ok l /\ in_name_order l /\ Permutation l (glob fs d)) /\
  (af_env fs "RR_ARCHETYPE_DIR" = None -> af_pkg fs = None -> find_archetypes fs None = Err OSError).
Proof.
  intro fs. split; [intros f H; unfold find_archetypes; now rewrite H|]. unfold find_archetypes.
  split; [|split].
  - intros d ->. eexists. split; [reflexivity|]. split; [apply sorted_ok|]. symmetry. apply isort_perm.
  - intros d -> ->. eexists. split; [reflexivity|]. split; [apply sorted_ok|]. symmetry. apply isort_perm.
  - intros -> ->. reflexivity.
Qed.
(* The order in which the operating system lists a directory does not matter. *)
Theorem C184_any_listing_order : forall fs fs' dir, (forall s, af_isfile fs s = af_isfile fs' s) -> af_env fs = af_env fs' -> af_pkg fs = af_pkg fs' ->
  (forall d, Permutation (af_names fs d) (af_names fs' d)) -> find_archetypes fs dir = find_archetypes fs' dir.
Proof.
  intros fs fs' dir F En Pk Pm. unfold find_archetypes, glob. destruct dir as [d|].
  - rewrite F. destruct (af_isfile fs' d); [reflexivity|]. cbn zeta. rewrite En. f_equal. apply isort_any_order. apply Permutation_map, Permutation_map, Pm.
  - rewrite En, Pk. destruct (af_env fs' "RR_ARCHETYPE_DIR") as [d|]; [|destruct (af_pkg fs') as [d|]; [|reflexivity]]; f_equal; apply isort_any_order, Permutation_map, Pm.
Qed.
(* A directory written without variables: exactly its archetype files, in name order, each opened under the name it has. *)
Theorem C184_directory : forall fs d, af_isfile fs d = false -> without "$" d -> exists l, find_archetypes fs (Some d) = Ok l /\ in_name_order l /\ Permutation l (glob fs d) /\
  forall f, In f l -> without "$" f -> opened_as fs f = f.
Proof.
  intros fs d F W. unfold find_archetypes. rewrite F. cbn zeta. unfold expandvars. rewrite (expand_same _ _ _ W). eexists. split; [reflexivity|]. split; [apply sorted_ok|]. split.
  - transitivity (map (replace d d) (glob fs d)); [symmetry; apply isort_perm|]. rewrite (map_ext _ (fun s => s) (replace_id d)). now rewrite map_id.
  - intros f _ Wf. unfold opened_as, expandvars. now apply expand_same.
Qed.
(* A directory written with variables, whose value e is not empty and has no slash at its end and does not occur again in the paths of its files:
   the names of the list begin with the directory as it was written, and they open exactly the archetype files of the directory. *)
Theorem C184_variables_partial : forall fs d, af_isfile fs d = false -> let e := expandvars (af_env fs) d in
  e <> "" -> ends_slash e = false ->
  (forall b, In b (af_names fs e) -> without "$" b /\ without "}" b /\ (forall r, b <> String "/" r) /\ only_first e (e ++ "/" ++ b)) ->
  exists l, find_archetypes fs (Some d) = Ok l /\ in_name_order l /\ (forall f, In f l -> exists b, In b (af_names fs e) /\ f = d ++ "/" ++ b) /\
    Permutation (map (opened_as fs) l) (glob fs e).
Proof.
  intros fs d F e He Hs H. unfold find_archetypes. rewrite F. cbn zeta. fold e.
  assert (J : forall b, In b (af_names fs e) -> path_join e b = e ++ "/" ++ b).
  { intros b Ib. destruct (H b Ib) as (_ & _ & N & _). unfold path_join. destruct e as [|c e']; [congruence|]. rewrite Hs. destruct b as [|x b]; [reflexivity|]. destruct (ascii_dec x "/") as [->|Nx]; [exfalso; now apply (N b)|].
    destruct x as [[] [] [] [] [] [] [] []]; try reflexivity. exfalso. now apply Nx. }
  assert (R : forall b, In b (af_names fs e) -> replace e d (path_join e b) = d ++ "/" ++ b).
  { intros b Ib. rewrite (J b Ib). apply replace_first; [exact He|]. now apply H. }
  eexists. split; [reflexivity|]. split; [apply sorted_ok|]. split.
  - intros f If. apply isort_in in If. apply in_map_iff in If as (p & <- & Ip). unfold glob in Ip. apply in_map_iff in Ip as (b & <- & Ib). exists b. split; [exact Ib|]. now apply R.
  - transitivity (map (opened_as fs) (map (replace e d) (glob fs e))); [apply Permutation_map; symmetry; apply isort_perm|].
    rewrite map_map. unfold glob. rewrite map_map. erewrite map_ext_in; [reflexivity|]. intros b Ib. cbv beta. rewrite (R b Ib), (J b Ib). unfold opened_as, expandvars.
    destruct (H b Ib) as (W1 & W2 & N & _). rewrite (expand_app (af_env fs) ("/" ++ b)) with (f' := String.length d).
    + reflexivity.
    + intros a c X. destruct a as [|x a]; cbn in X; [congruence|]. assert (Y : b = a ++ String "$" c) by congruence. now apply (W1 a c).
    + intros a c X. destruct a as [|x a]; cbn in X; [congruence|]. assert (Y : b = a ++ String "}" c) by congruence. now apply (W2 a c).
    + cbn. split; [reflexivity|discriminate].
    + lia.
    + rewrite sapp_len. lia.
Qed.
(* the directory /data/arch with one file, and a variable of its name *)
Definition box (v dir : string) : archfs := {| af_isfile := fun _ => false; af_names := fun d => if String.eqb d dir then ["rrarchetype-galaxy.fits"] else []; af_env := fun n => if String.eqb n "A" then Some v else None; af_pkg := None |}.
(* a slash at the end of the value: the listed name runs into the variable, and the file cannot be opened under it *)
Theorem C184_slash_refuted : exists fs d, af_isfile fs d = false /\ glob fs (expandvars (af_env fs) d) = ["/data/arch/rrarchetype-galaxy.fits"] /\
  find_archetypes fs (Some d) = Ok ["$Arrarchetype-galaxy.fits"] /\ opened_as fs "$Arrarchetype-galaxy.fits" = "$Arrarchetype-galaxy.fits".
Proof. exists (box "/data/arch/" "/data/arch/"), "$A". vm_compute. now repeat split. Qed.
(* the value occurs in the name of the file: every occurrence is replaced *)
Theorem C184_value_in_name_refuted : exists fs d, af_isfile fs d = false /\ glob fs (expandvars (af_env fs) d) = ["arch/rrarchetype-galaxy.fits"] /\
  find_archetypes fs (Some d) = Ok ["$A/rr$Aetype-galaxy.fits"] /\ opened_as fs "$A/rr$Aetype-galaxy.fits" <> "arch/rrarchetype-galaxy.fits".
Proof. exists (box "arch" "arch"), "$A". vm_compute. repeat split. discriminate. Qed.
(* nothing found is no error *)
Theorem C184_nothing_found : forall fs d, af_isfile fs d = false -> af_names fs (expandvars (af_env fs) d) = [] -> find_archetypes fs (Some d) = Ok [].
Proof. intros fs d F E. unfold find_archetypes, glob. rewrite F. cbn zeta. now rewrite E. Qed.

(* the conditions of C184_variables_partial hold of /data and two files *)
Definition two_files : archfs := {| af_isfile := fun _ => false; af_names := fun d => if String.eqb d "/data" then ["rrarchetype-star.fits"; "rrarchetype-galaxy.fits"] else []; af_env := fun n => if String.eqb n "A" then Some "/data" else None; af_pkg := None |}.
Fixpoint no_char (c : ascii) (s : string) : bool := match s with String x r => negb (Ascii.eqb x c) && no_char c r | "" => true end.
Lemma no_char_ok c s : no_char c s = true -> without c s.
Proof. intros H a b ->. induction a as [|x a IH]; cbn in H; [rewrite Ascii.eqb_refl in H; discriminate|]. apply andb_true_iff in H as [_ H]. auto. Qed.
Fixpoint never (e s : string) : bool := negb (String.prefix e s) && match s with String _ r => never e r | "" => true end.
Lemma never_ok e s : never e s = true -> forall a b, s <> a ++ e ++ b.
Proof.
  intros H a b E. subst s. induction a as [|x a IH].
  - cbn [append] in H. assert (P : String.prefix e (e ++ b) = true) by (apply prefix_app; now exists b). destruct (e ++ b) as [|c r] eqn:Ee; cbn [never] in H; rewrite P in H; discriminate.
  - cbn [append never] in H. apply andb_true_iff in H as [_ H]. auto.
Qed.
Example C184_nonvacuous : find_archetypes two_files (Some "${A}") = Ok ["${A}/rrarchetype-galaxy.fits"; "${A}/rrarchetype-star.fits"] /\ expandvars (af_env two_files) "${A}" = "/data" /\
  (forall b, In b (af_names two_files "/data") -> without "$" b /\ without "}" b /\ (forall r, b <> String "/" r) /\ only_first "/data" ("/data" ++ "/" ++ b)).
Proof.
  split; [vm_compute; reflexivity|]. split; [vm_compute; reflexivity|].
  intros b [<-|[<-|[]]]; (split; [apply no_char_ok; reflexivity|]; split; [apply no_char_ok; reflexivity|]; split; [discriminate|]; intros a c E; destruct a as [|x a]; [reflexivity|]; exfalso; cbn in E;
    injection E as _ E; refine (never_ok "/data" _ _ a c E); vm_compute; reflexivity).
Qed.
Print Assumptions C184_file_or_default. Print Assumptions C184_any_listing_order. Print Assumptions C184_directory. Print Assumptions C184_variables_partial. Print Assumptions C184_slash_refuted. Print Assumptions C184_value_in_name_refuted. Print Assumptions C184_nothing_found.
