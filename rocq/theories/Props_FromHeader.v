(* C185: the templates of a redshift file can be loaded again from its header. *)
From Verif Require Import Prelude PreludeFacts Model_Zscan Proof_Table Model_IO Spec_IO Proof_IO Props_IO Model_Tpl Spec_Tpl Proof_Tpl Proof_Tpl2 Model_FromHeader.
Require Import Reals Lra.
Local Open Scope R_scope.
Definition no_options : zscan_args := {| zs_galaxy := None; zs_qso := None; zs_star := None |}.
(* hts: the templates of a run, each with what the header says of it. The header lists the names the templates were loaded under; dir, maybe on another computer, holds a
   file of the same contents under the base name of each; the redshifts of a template do not come from an option. Then exactly the templates of the run are loaded. *)
Theorem C185_same_templates_partial : forall tofloat fs read fs' read' a hts dir version arch deps spec,
  (forall k, In k (map fst (arch ++ deps ++ spec)) -> ~ tmpl_key k) -> (length hts <= 100)%nat ->
  (forall h t, In (h, t) hts -> exists f, open_template fs read (t_file h) = Ok f /\ load_file tofloat a f = Ok t /\ (a = no_options \/ h_redshifts f <> None) /\
     let there := path_join dir (basename (t_file h)) in fs_exists fs' there = true /\ read' there = f) ->
  load_templates_from_header tofloat fs' read' (get_header version (map fst hts) arch deps spec) dir = Ok (map snd hts).
Proof.
  intros tofloat fs read fs' read' a hts dir version arch deps spec K L H. unfold load_templates_from_header. rewrite C65_header_roundtrip_partial by exact K. cbn [rbind].
  rewrite firstn_all2 by (rewrite map_length; exact L). rewrite map_map. unfold load_templates. cbn [rbind].
  clear K L. induction hts as [|[h t] hts IH]; [reflexivity|]. cbn [map mapM fst snd].
  destruct (H h t (or_introl eq_refl)) as (f & _ & Lf & Z & X & Y). unfold open_template at 1. rewrite X, Y. cbn [rbind].
  assert (E : load_file tofloat no_options f = Ok t).
  { destruct Z as [->|Z]; [exact Lf|]. unfold load_file in *. destruct (h_rrtype f); [|discriminate Lf]. destruct (h_redshifts f); [exact Lf|congruence]. }
  change {| zs_galaxy := None; zs_qso := None; zs_star := None |} with no_options in *. rewrite E. cbn [rbind]. rewrite IH; [reflexivity|]. intros h' t' I. apply (H h' t'). now right.
Qed.
(* A template whose file is neither in dir nor found from the template directory: nothing is loaded. *)
Theorem C185_missing_file : forall tofloat fs read hs dir version arch deps spec h,
  (forall k, In k (map fst (arch ++ deps ++ spec)) -> ~ tmpl_key k) -> (length hs <= 100)%nat -> In h hs ->
  let there := path_join dir (basename (t_file h)) in fs_exists fs there = false -> fs_exists fs (path_join (get_template_dir fs) there) = false ->
  forall ts, load_templates_from_header tofloat fs read (get_header version hs arch deps spec) dir <> Ok ts.
Proof.
  intros tofloat fs read hs dir version arch deps spec h K L I there X Y ts E. unfold load_templates_from_header in E. rewrite C65_header_roundtrip_partial in E by exact K. cbn [rbind] in E.
  rewrite firstn_all2 in E by exact L. unfold load_templates in E. cbn [rbind] in E. apply mapM_Forall2 in E.
  assert (J : In there (map (fun t => path_join dir (basename (t_file t))) hs)) by (apply in_map_iff; now exists h).
  revert J E. generalize (map (fun t => path_join dir (basename (t_file t))) hs). intros l J E. revert ts E. induction l as [|n l IH]; intros ts E; [destruct J|]. inversion E as [|? t ? ts' E1 E2]; subst. destruct J as [->|J]; [|now apply (IH J ts')].
  unfold open_template in E1. cbv zeta in E1. rewrite X, Y in E1. discriminate E1.
Qed.
(* A run with a redshift range as an option: the header does not keep it, and the template that is loaded from the header has other redshifts. *)
Definition star_file : tfile := {| h_rrtype := Some "STAR"%string; h_subtype := Some "F"%string; h_method := None; h_igm := None; h_version := None; h_crval := 3; h_cdelt := 1; h_naxis := 2; h_loglam := false; h_data := [[1; 2]]; h_redshifts := None |}.
Definition one_dir : filesys := {| fs_exists := fun s => String.eqb s "/t/star.fits"; fs_isdir := fun _ => false; fs_lines := fun _ => []; fs_glob := fun _ => []; fs_absdir := fun s => s; fs_env := None; fs_pkg := "/t"%string |}.
Definition digits (s : string) : option R := if String.eqb s "0" then Some 0 else if String.eqb s "1" then Some 1 else None.
Definition star_option : zscan_args := {| zs_galaxy := None; zs_qso := None; zs_star := Some "0,1,1"%string |}.
Definition star_entry : Model_IO.tmpl := {| t_full := "STAR:::F"%string; t_version := "unknown"%string; t_file := "/t/star.fits"%string |}.
Lemma points e start stop step : step <> 0 -> 0 < (stop - start) / step -> exists l, arange e start stop step = Ok (start :: l).
Proof.
  intros N P. unfold arange. destruct (Req_EM_T step 0); [contradiction|]. assert (C : (0 < Z.to_nat (ceil ((stop - start) / step)))%nat) by (apply ceil_spec; exact P).
  destruct (Z.to_nat (ceil ((stop - start) / step))) as [|m0]; [lia|]. cbn [seq map INR]. eexists. f_equal. f_equal. ring.
Qed.
Lemma star_loaded a z : old_style_redshifts digits a "STAR" = Ok z -> z <> [] -> exists t, load_file digits a star_file = Ok t /\ tp_z t = z.
Proof.
  intros E N. unfold load_file. cbn [h_rrtype star_file h_redshifts]. change (upper (strip "STAR")) with "STAR"%string. rewrite E. cbn [rbind]. destruct z as [|x z]; [congruence|]. unfold igm_of. cbn [h_igm h_version opt]. change (String.eqb "STAR" "STAR") with true. cbn [rbind].
  unfold finish_init. cbn [tp_wave tp_method tp_z tpl_wave h_loglam h_naxis seq map]. eexists. split; reflexivity.
Qed.
Theorem C185_options_refuted : exists tofloat fs read a h t t', length t.(tp_z) <> 0%nat /\ open_template fs read (t_file h) = Ok star_file /\ load_file tofloat a star_file = Ok t /\
  load_templates_from_header tofloat fs read (get_header "1" [h] [] [] []) "/t" = Ok [t'] /\ tp_z t' <> tp_z t.
Proof.
  destruct (points ZeroDivisionError 0 1 1 ltac:(lra) ltac:(lra)) as (l & E). destruct (points ZeroDivisionError (- (2 / 1000)) (201 / 100000) (4 / 100000) ltac:(lra) ltac:(lra)) as (l' & E').
  destruct (star_loaded star_option (0 :: l)) as (t & Et & Zt); [unfold old_style_redshifts; cbn [String.eqb Ascii.eqb Bool.eqb zs_star star_option]; change (parse_range digits "0,1,1") with (@Ok (R * R * R) (0, 1, 1)); cbn [rbind]; exact E|discriminate|].
  destruct (star_loaded no_options (- (2 / 1000) :: l')) as (t' & Et' & Zt'); [exact E'|discriminate|].
  exists digits, one_dir, (fun _ => star_file), star_option, star_entry, t, t'. split; [rewrite Zt; discriminate|]. split; [reflexivity|]. split; [exact Et|]. split.
  - apply (C185_same_templates_partial digits one_dir (fun _ => star_file) one_dir (fun _ => star_file) no_options [(star_entry, t')] "/t" "1" [] [] []).
    + intros k [].
    + cbn. lia.
    + intros h t0 [X|[]]. injection X as <- <-. exists star_file. split; [reflexivity|]. split; [exact Et'|]. split; [now left|]. split; reflexivity.
  - rewrite Zt, Zt'. intro X. injection X as X _. lra.
Qed.
(* the conditions of C185_same_templates_partial hold of one template without an option: the proof of C185_options_refuted uses it; and what is loaded is not empty *)
Example C185_nonvacuous : exists t, open_template one_dir (fun _ => star_file) (t_file star_entry) = Ok star_file /\ load_file digits no_options star_file = Ok t /\ fs_exists one_dir (path_join "/t" (basename (t_file star_entry))) = true /\ tp_flux t = [[1; 2]].
Proof.
  destruct (points ZeroDivisionError (- (2 / 1000)) (201 / 100000) (4 / 100000) ltac:(lra) ltac:(lra)) as (l' & E'). destruct (star_loaded no_options (- (2 / 1000) :: l')) as (t' & Et' & Zt'); [exact E'|discriminate|].
  exists t'. split; [reflexivity|]. split; [exact Et'|]. split; [reflexivity|]. apply load_ok in Et'. exact (to_flux _ _ _ _ Et').
Qed.
Print Assumptions C185_same_templates_partial. Print Assumptions C185_missing_file. Print Assumptions C185_options_refuted.
