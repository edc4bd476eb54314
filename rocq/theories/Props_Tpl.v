(* Properties of templates.py: reading template files, redshift grids, choice of the files. *)
From Verif Require Import Prelude PreludeFacts Model_Zscan Model_IO Model_Tpl Spec_Tpl Proof_Tpl Proof_Tpl2.
Require Import Reals Lra.
Local Open Scope R_scope.

(* ---------------- C104: a template file gives exactly the template it describes, or is rejected ---------------- *)
Theorem C104_what_the_file_says : forall tofloat a f t, load_file tofloat a f = Ok t <-> template_of tofloat a f t.
Proof. exact load_ok. Qed.
Theorem C104_direct : forall t t', template_direct t = Ok t' <->
  t' = t /\ tp_wave t <> [] /\ tp_z t <> [] /\ (tp_method t = "PCA" \/ tp_method t = "NMF")%string.
Proof.
  intros t t'. unfold template_direct, finish_init. destruct (tp_wave t) as [|w ws]; [split; [discriminate|intros (_ & H & _); now destruct H]|].
  destruct (String.eqb_spec (tp_method t) "PCA") as [E|N]; [|destruct (String.eqb_spec (tp_method t) "NMF") as [E|N']]; cbn [orb].
  1,2: destruct (tp_z t) as [|z zs];
    [split; [discriminate|intros (_ & _ & H & _); now destruct H]
    |split; [intro H; injection H as <-; split; [reflexivity|]; split; [discriminate|]; split; [discriminate|tauto]|now intros (-> & _)]].
  split; [discriminate|]. intros (_ & _ & _ & [?|?]); contradiction.
Qed.
Definition ex_file : tfile := {| h_rrtype := Some " galaxy"%string; h_subtype := None; h_method := Some "nmf"%string; h_igm := None;
  h_version := Some "2.6"%string; h_crval := 3000; h_cdelt := 1; h_naxis := 2; h_loglam := false; h_data := [[1; 2]]; h_redshifts := Some [2] |}.
Definition ex_args : zscan_args := {| zs_galaxy := Some "0,1,0.5"%string; zs_qso := None; zs_star := None |}.
Definition ex_float (s : string) : option R :=
  if String.eqb s "0" then Some 0 else if String.eqb s "1" then Some 1 else if String.eqb s "0.5" then Some (1/2) else None.
Definition ex_tmpl : tmpl := {| tp_type := "GALAXY"%string; tp_sub := ""%string; tp_method := "NMF"%string; tp_igm := "Calura12"%string;
  tp_version := "2.6"%string; tp_wave := [3000 + 1 * INR 0; 3000 + 1 * INR 1]; tp_flux := [[1; 2]]; tp_z := [2] |}.
Example C104_nonvacuous : load_file ex_float ex_args ex_file = Ok ex_tmpl.
Proof. reflexivity. Qed.
Print Assumptions C104_what_the_file_says.

(* ---------------- C105: the redshift grid of a file that brings none ---------------- *)
(* step_up ty dz z: the point after z, z + dz for stars, (1+z) 10^dz - 1 for galaxies and quasars *)
Theorem C105_grid : forall tofloat a f t zmin zmax dz, load_file tofloat a f = Ok t -> h_redshifts f = None ->
  asked_range tofloat a (tp_type t) zmin zmax dz -> 0 < dz ->
  let next z := if String.eqb (tp_type t) "STAR" then z + dz else (1 + z) * Rpower 10 dz - 1 in
  zmin < zmax /\ grid_of_type (tp_type t) zmin zmax dz (tp_z t) /\ nth 0 (tp_z t) 0 = zmin /\ StronglySorted Rlt (tp_z t) /\
  (forall z, In z (tp_z t) -> zmin <= z < zmax) /\
  (forall z, zmin <= z < zmax -> exists z', In z' (tp_z t) /\ z' <= z < next z').
Proof.
  intros tofloat a f t zmin zmax dz H Hn Ha Hd next. apply load_ok in H. destruct H as [_ _ _ _ _ _ _ _ [Hz0 [E|[_ (x & y & d & A & G)]]]]; [congruence|].
  assert (E : (x, y, d) = (zmin, zmax, dz)).
  { unfold asked_range in *. destruct (option_for a (tp_type t)) as [s|].
    - apply parse_range_ok in A. apply parse_range_ok in Ha. congruence.
    - unfold default_range in *. destruct A as [(E1 & -> & -> & ->)|[(E1 & -> & -> & ->)|(E1 & -> & -> & ->)]]; rewrite E1 in Ha;
      destruct Ha as [(E2 & -> & -> & ->)|[(E2 & -> & -> & ->)|(E2 & -> & -> & ->)]]; try discriminate; reflexivity. }
  injection E as -> -> ->. assert (Hz : zmin < zmax).
  { destruct (Rlt_le_dec zmin zmax) as [L|L]; [exact L|]. exfalso. apply Hz0. eapply grid_empty; eauto. }
  destruct (grid_facts _ _ _ _ _ G Hd Hz) as (A1 & _ & A2 & A3 & A4).
  split; [exact Hz|]. split; [exact G|]. split; [exact A1|]. split; [exact A2|]. split; [exact A3|]. exact A4.
Qed.
(* a range is accepted exactly when it has a point, and nothing else decides *)
Theorem C105_accepted : forall tofloat a ty zmin zmax dz, (ty = "GALAXY" \/ ty = "QSO" \/ ty = "STAR")%string -> asked_range tofloat a ty zmin zmax dz -> 0 < dz ->
  ((exists l, l <> [] /\ old_style_redshifts tofloat a ty = Ok l) <-> zmin < zmax /\ (ty <> "STAR"%string -> -1 < zmin)).
Proof.
  intros tofloat a ty zmin zmax dz Hty Ha Hd. split.
  - intros (l & Hl & H). apply redshifts_ok in H. destruct H as (x & y & d & A & G).
    assert (E : (x, y, d) = (zmin, zmax, dz)).
    { unfold asked_range in *. destruct (option_for a ty) as [s|].
      - apply parse_range_ok in A. apply parse_range_ok in Ha. congruence.
      - unfold default_range in *. destruct A as [(E1 & -> & -> & ->)|[(E1 & -> & -> & ->)|(E1 & -> & -> & ->)]]; rewrite E1 in Ha;
        destruct Ha as [(E2 & -> & -> & ->)|[(E2 & -> & -> & ->)|(E2 & -> & -> & ->)]]; try discriminate; reflexivity. }
    injection E as -> -> ->. split.
    + destruct (Rlt_le_dec zmin zmax) as [L|L]; [exact L|]. exfalso. apply Hl. eapply grid_empty; eauto.
    + intro Hns. destruct G as [_ [[? _]|(_ & ? & _)]]; [contradiction|assumption].
  - intros [Hz Hm]. assert (Hd' : dz <> 0) by lra.
    assert (Hg : exists l, grid_of_type ty zmin zmax dz l).
    { destruct (string_dec ty "STAR") as [->|Hns].
      - destruct (arange ZeroDivisionError zmin zmax dz) as [l|e] eqn:E.
        + apply arange_ok in E. exists l. split; [exact Hd'|]. left. split; [reflexivity|apply E].
        + exfalso. unfold arange in E. destruct (Req_EM_T dz 0); [contradiction|discriminate].
      - specialize (Hm Hns). destruct (log_range zmin zmax dz) as [l|e] eqn:E.
        + apply log_range_ok in E. exists l. split; [exact Hd'|]. right. split; [tauto|]. tauto.
        + exfalso. unfold log_range, arange in E. destruct (Rlt_dec 0 (1 + zmin)); [|lra]. destruct (Rlt_dec 0 (1 + zmax)); [|lra].
          destruct (Req_EM_T dz 0); [contradiction|discriminate]. }
    destruct Hg as (l & G). exists l. split; [apply (grid_facts _ _ _ _ _ G Hd Hz)|]. apply redshifts_ok. exists zmin, zmax, dz. now split.
Qed.
(* text that is not three numbers separated by commas is refused *)
Theorem C105_bad_text : forall tofloat a ty s, option_for a ty = Some s -> (forall zmin zmax dz, ~ range_text tofloat s zmin zmax dz) -> forall l, old_style_redshifts tofloat a ty <> Ok l.
Proof.
  intros tofloat a ty s Ho Hn l H. apply redshifts_ok in H. destruct H as (x & y & d & A & _). unfold asked_range in A. rewrite Ho in A. now apply Hn in A.
Qed.
Example C105_nonvacuous : asked_range ex_float ex_args "GALAXY" 0 1 (1/2) /\ (exists l, l <> [] /\ old_style_redshifts ex_float ex_args "GALAXY" = Ok l).
Proof.
  assert (H : asked_range ex_float ex_args "GALAXY" 0 1 (1/2)).
  { unfold asked_range. cbn. exists "0"%string, "1"%string, "0.5"%string. split; [reflexivity|].
    assert (K : forall x, split_go "," x 0 "" = [x] -> no_comma x).
    { intros x E u v ->. destruct (comma_dec u) as [Hu|(a & b & -> & Ha)].
      - rewrite split_comma_app in E by exact Hu. destruct (comma_dec v) as [G|(p & q & -> & G)]; [rewrite split_comma_none in E by exact G|rewrite split_comma_app in E by exact G]; discriminate.
      - rewrite <- !Proof_IO.app_assoc_s in E. rewrite split_comma_app in E by exact Ha.
        match type of E with _ :: split_go _ ?z _ _ = _ => destruct (comma_dec z) as [G|(p & q & Ez & G)]; [rewrite split_comma_none in E by exact G|rewrite Ez, split_comma_app in E by exact G]; discriminate end. }
    split; [now apply K|]. split; [now apply K|]. split; [now apply K|]. split; [reflexivity|]. split; reflexivity. }
  split; [exact H|]. apply (C105_accepted ex_float ex_args "GALAXY" 0 1 (1/2)); [now left|exact H|lra|]. split; [lra|]. intros _. lra.
Qed.
Print Assumptions C105_grid.
Print Assumptions C105_accepted.

(* ---------------- C106: the scan range the user asks for is the range that is scanned ---------------- *)
(* a file with its own redshifts keeps them, whatever was asked for, without an error *)
Theorem C106_asked_range_refuted : exists tofloat a f t zmin zmax dz,
  load_file tofloat a f = Ok t /\ (exists s, option_for a (tp_type t) = Some s /\ range_text tofloat s zmin zmax dz) /\
  0 < dz /\ zmin < zmax /\ (forall z, In z (tp_z t) -> ~ (zmin <= z < zmax)).
Proof.
  exists ex_float, ex_args, ex_file, ex_tmpl, 0, 1, (1/2). split; [reflexivity|]. split.
  - exists "0,1,0.5"%string. split; [reflexivity|]. exact (proj1 C105_nonvacuous).
  - split; [lra|]. split; [lra|]. intros z [<-|[]]. lra.
Qed.
Theorem C106_ignored : forall tofloat a a' f zs, h_redshifts f = Some zs -> load_file tofloat a f = load_file tofloat a' f.
Proof. intros tofloat a a' f zs H. unfold load_file. rewrite H. reflexivity. Qed.
Theorem C106_asked_range_partial : forall tofloat a f t s zmin zmax dz, load_file tofloat a f = Ok t -> h_redshifts f = None ->
  option_for a (tp_type t) = Some s -> range_text tofloat s zmin zmax dz -> grid_of_type (tp_type t) zmin zmax dz (tp_z t).
Proof.
  intros tofloat a f t s zmin zmax dz H Hn Ho Hr. apply load_ok in H. destruct H as [_ _ _ _ _ _ _ _ [_ [E|[_ (x & y & d & A & G)]]]]; [congruence|].
  unfold asked_range in A. rewrite Ho in A. apply parse_range_ok in A. apply parse_range_ok in Hr. assert (E : (x, y, d) = (zmin, zmax, dz)) by congruence.
  injection E as -> -> ->. exact G.
Qed.
Print Assumptions C106_asked_range_partial.

(* ---------------- C107: every template that is listed is used ---------------- *)
Theorem C107_all_used_partial : forall tofloat fs read a p l, load_templates tofloat fs read a p = Ok l ->
  NoDup (map (fun t => (tp_type t, tp_sub t)) l) -> dist_templates tofloat fs read a p = Ok l.
Proof.
  intros tofloat fs read a p l H Hd. unfold dist_templates. rewrite H. cbn [rbind]. f_equal. rewrite as_dict_distinct by exact Hd.
  rewrite map_map. cbn [snd]. apply map_id.
Qed.
(* with two templates of the same type and subtype only the last is used *)
Theorem C107_last_wins : forall tofloat fs read a p u, dist_templates tofloat fs read a p = Ok u ->
  exists l, load_templates tofloat fs read a p = Ok l /\ NoDup (map (fun t => (tp_type t, tp_sub t)) u) /\ (forall t, In t u <-> last_with_key l t).
Proof.
  intros tofloat fs read a p u H. unfold dist_templates in H. destruct (load_templates tofloat fs read a p) as [l|e]; cbn [rbind] in H; [|discriminate].
  injection H as <-. exists l. split; [reflexivity|]. destruct (as_dict_inv l) as [ND I]. split.
  - rewrite map_map. erewrite map_ext_in; [exact ND|]. intros [k t] Hin. cbn [snd fst]. apply I in Hin. symmetry. apply Hin.
  - intro t. split.
    + intro Hin. apply in_map_iff in Hin. destruct Hin as ([k t'] & <- & Hin). apply I in Hin. apply Hin.
    + intro Hl. apply in_map_iff. exists (key t, t). split; [reflexivity|]. apply I. now split.
Qed.
Definition ex_fs : filesys := {| fs_exists := fun _ => true; fs_isdir := fun s => String.eqb s "/t"; fs_lines := fun _ => ["a.fits"; "# old"; "/q/b.fits new"]%string;
  fs_glob := fun _ => []; fs_absdir := fun _ => "/t"%string; fs_env := Some "/t"%string; fs_pkg := "/p"%string |}.
Definition ex_file2 : tfile := {| h_rrtype := Some "GALAXY"%string; h_subtype := None; h_method := None; h_igm := Some "None"%string;
  h_version := None; h_crval := 3000; h_cdelt := 1; h_naxis := 2; h_loglam := false; h_data := [[1; 2]]; h_redshifts := Some [1] |}.
Definition ex_read (s : string) : tfile := if String.eqb s "/t/a.fits" then ex_file else ex_file2.
Theorem C107_all_used_refuted : exists tofloat fs read a p l u t, load_templates tofloat fs read a p = Ok l /\ dist_templates tofloat fs read a p = Ok u /\ In t l /\ ~ In t u.
Proof.
  exists ex_float, ex_fs, ex_read, ex_args, TNone. do 2 eexists. exists ex_tmpl. split; [reflexivity|]. split; [reflexivity|]. split; [now left|].
  intros [E|[]]. assert (E2 := f_equal tp_igm E). cbn in E2. discriminate E2.
Qed.
Print Assumptions C107_last_wins.

(* ---------------- C108: which files a template path means ---------------- *)
Theorem C108_text_path : forall fs s out, find_templates fs (TStr s) = Ok out <-> resolves fs s out.
Proof. exact find_str. Qed.
Theorem C108_default : forall fs out, find_templates fs TNone = Ok out <-> resolves fs (match fs_env fs with Some d => d | None => fs_pkg fs end) out.
Proof. intros fs out. rewrite <- find_str. unfold find_templates, get_template_dir, opt. reflexivity. Qed.
Theorem C108_list : forall fs l, find_templates fs (TList l) = Ok l.
Proof. reflexivity. Qed.
(* the answer is unique, and every file named exists when the directory listing is right *)
Theorem C108_files_exist : forall fs s out, (forall d x, In x (fs_glob fs d) -> fs_exists fs x = true) -> find_templates fs (TStr s) = Ok out ->
  forall x, In x out -> fs_exists fs x = true.
Proof.
  intros fs s out Hg H x Hx. apply find_str in H. destruct H as [o H1 H2 H3 H4|H1 H2 H3|o H1 H2 H3 H4|H1 H2 H3].
  - eapply listed_exist; eauto.
  - eauto.
  - eapply listed_exist; eauto.
  - now destruct Hx as [<-|[]].
Qed.
(* pathlib paths are let through by the check and then fail, unless they name a directory; load_templates takes none *)
Theorem C108_pathlib_refuted : exists fs s, resolves fs s [s] /\ find_templates fs (TStr s) = Ok [s] /\ find_templates fs (TPath s) = Err AttributeError.
Proof.
  exists ex_fs, "/t/a.fits"%string. split; [|split; reflexivity]. apply re_file; [reflexivity|reflexivity|]. left. now exists "/t/a"%string.
Qed.
Theorem C108_load_pathlib_refuted : forall tofloat fs read a s, load_templates tofloat fs read a (TPath s) = Err TypeError.
Proof. reflexivity. Qed.
Theorem C108_pathlib_dir_partial : forall fs s, fs_isdir fs s = true -> find_templates fs (TPath s) = find_templates fs (TStr s).
Proof. intros fs s H. unfold find_templates. rewrite H. reflexivity. Qed.
(* which file a template name stands for: the name itself if such a file exists, else the file of that name in the
   template directory, else an error *)
Theorem C108_opened_file : forall fs read name t, open_template fs read name = Ok t <->
  (fs_exists fs name = true /\ t = read name) \/
  (fs_exists fs name = false /\ exists x, x = path_join (match fs_env fs with Some d => d | None => fs_pkg fs end) name /\ fs_exists fs x = true /\ t = read x).
Proof.
  intros fs read name t. unfold open_template, get_template_dir, opt. cbv zeta. destruct (fs_exists fs name).
  - split; [intro H; injection H as <-; now left|]. intros [[_ ->]|[H _]]; [reflexivity|discriminate].
  - destruct (fs_exists fs (path_join _ name)) eqn:E.
    + split; [intro H; injection H as <-; right; split; [reflexivity|]; eauto|]. intros [[H _]|[_ (x & -> & _ & ->)]]; [discriminate|reflexivity].
    + split; [discriminate|]. intros [[H _]|[_ (x & -> & H & _)]]; [discriminate|congruence].
Qed.
Example C108_nonvacuous : find_templates ex_fs TNone = Ok ["/t/a.fits"; "/q/b.fits"]%string.
Proof. reflexivity. Qed.
Print Assumptions C108_text_path.
Print Assumptions C108_files_exist.
