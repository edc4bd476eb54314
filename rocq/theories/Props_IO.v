(* Theorems on names, result files, target ids and headers: C59-C65, C89, C90. *)
From Verif Require Import Prelude PreludeFacts Facts2 Model_Dist Proof_Dist3 Model_Zscan Model_IO Spec_IO Proof_IO Proof_IO2 Proof_IO3 Proof_IO4.

(* ---------------- C59 ---------------- *)
Theorem C59_fulltype_roundtrip_partial : forall s t, name_ok s -> name_ok t -> (t = EmptyString \/ ~ ends_colon s) ->
  parse_fulltype (make_fulltype s (Some t)) = Ok (s, t) /\ parse_fulltype (make_fulltype s None) = Ok (s, EmptyString).
Proof.
  intros s t [Ts Hs] [Tt Ht] H. pose proof (strip_id s Ts) as Es. pose proof (strip_id t Tt) as Et.
  assert (G : forall t, strip t = t -> ~ occurs ":::" t -> (t = EmptyString \/ ~ ends_colon s) -> parse_fulltype (make_fulltype s (Some t)) = Ok (s, t)).
  { intros u Eu Hu Hc. rewrite parse_make; rewrite ?Es, ?Eu; auto. }
  split; [now apply G|]. change (make_fulltype s None) with (make_fulltype s (Some EmptyString)). apply G; [reflexivity| |now left].
  intros (a & b & E). destruct a; discriminate.
Qed.
(* surrounding white space is dropped, everything else kept *)
Theorem C59_white_space : forall s t, ~ occurs ":::" (strip s) -> ~ occurs ":::" (strip t) -> (strip t = EmptyString \/ ~ ends_colon (strip s)) ->
  parse_fulltype (make_fulltype s (Some t)) = Ok (strip s, strip t) /\ trimmed (strip s) /\ trimmed (strip t).
Proof. intros s t H1 H2 H3. split; [now apply parse_make|]. split; apply strip_trimmed. Qed.
(* distinct clean names never share a full type *)
Theorem C59_fulltype_injective : forall s t s' t', name_ok s -> name_ok t -> name_ok s' -> name_ok t' -> ~ ends_colon s -> ~ ends_colon s' ->
  make_fulltype s (Some t) = make_fulltype s' (Some t') -> s = s' /\ t = t'.
Proof.
  intros s t s' t' H1 H2 H3 H4 H5 H6 E. pose proof (proj1 (C59_fulltype_roundtrip_partial s t H1 H2 (or_intror H5))) as A. pose proof (proj1 (C59_fulltype_roundtrip_partial s' t' H3 H4 (or_intror H6))) as B.
  rewrite E in A. rewrite A in B. injection B as <- <-. auto.
Qed.
Theorem C59_fulltype_roundtrip_refuted :
  (exists s t, trimmed s /\ trimmed t /\ ~ occurs ":::" s /\ ~ occurs ":::" t /\ parse_fulltype (make_fulltype s (Some t)) <> Ok (s, t)) /\
  (exists s t, trimmed s /\ trimmed t /\ parse_fulltype (make_fulltype s (Some t)) = Err ValueError).
Proof.
  assert (T : forall l, strip l = l -> trimmed l) by (intros l H; rewrite <- H; apply strip_trimmed).
  assert (O : forall a b, contains a b = false -> ~ occurs a b) by (intros a b H C; apply contains_occurs in C; congruence).
  split.
  - exists "QSO:"%string, "Z"%string. repeat split; try (apply T; reflexivity); try (apply O; reflexivity). vm_compute. intros H. discriminate H.
  - exists "A:::B"%string, "C"%string. repeat split; apply T; reflexivity.
Qed.
Example C59_nonvacuous : name_ok "GALAXY" /\ name_ok "ELG_07" /\ ~ ends_colon "GALAXY" /\
  make_fulltype " GALAXY" (Some "ELG_07 "%string) = "GALAXY:::ELG_07"%string /\ parse_fulltype "GALAXY:::ELG_07 " = Ok ("GALAXY", "ELG_07")%string.
Proof.
  assert (T : forall l, strip l = l -> contains ":::" l = false -> name_ok l).
  { intros l H H2. split; [rewrite <- H; apply strip_trimmed|]. intros C. apply contains_occurs in C. congruence. }
  split; [now apply T|]. split; [now apply T|]. split; [|split; reflexivity].
  intros (a & E). do 6 (destruct a as [|? a]; [discriminate E|injection E as _ E]). destruct a; discriminate E.
Qed.

(* ---------------- C60 ---------------- *)
Section File.
  Context {P : Type} (f32 : Q -> Q) (cast : P -> P).
  (* what is read back of one scan *)
  Definition stored (r : res scan) : res scan := match r with Ok s => Ok (lower f32 s) | Err e => Err e end.
  Theorem C60_file_roundtrip_partial : forall zs (zfit : list (frow P)) ids types, details_ok zs zfit ids types ->
    exists h zs' fits zf, write_zscan f32 cast zs zfit = Ok h /\ read_zscan h None = Ok (zs', fits, zf) /\ read_zscan_redrock h = Ok zs' /\
      map fst zs' = ids /\
      (forall t ft, In t ids -> entry zs' t ft = stored (entry zs t ft)) /\
      (forall t ft, ~ In t ids -> entry zs' t ft = Err KeyError) /\
      Permutation zf (map (lower_row cast) zfit) /\
      (forall t, In t ids -> filter (fun r => (f_tid r =? t)%Z) zf = filter (fun r => (f_tid r =? t)%Z) (map (lower_row cast) zfit)) /\
      (forall t ft, In t ids -> look fits t ft = some_rows (rows_for t ft (map (lower_row cast) zfit))).
  Proof.
    intros zs zfit ids types D. destruct (roundtrip f32 cast zs zfit ids types None D (do_nodup _ _ _ _ D) (incl_refl _) (do_some _ _ _ _ D)) as (h & zs' & fits & zf & Ew & Er & Es & Hm & He & Hx & Hp & Ht & Hl & _).
    destruct (roundtrip_redrock f32 cast zs zfit ids types D) as (h1 & zs1 & Ew1 & Er1 & Hm1 & _). assert (h1 = h) by congruence. subst h1.
    assert (Es' : read_zscan_redrock h = Ok zs').
    { destruct (write_ok f32 cast zs zfit ids types D) as (t0 & h1 & d0 & Ht0 & Ed & Ew2 & Hi & Hs & _). assert (h1 = h) by congruence. subst h1.
      pose proof (written_ok f32 zs zfit ids types t0 h d0 D Ht0 Ed Hi Hs) as Hok. rewrite (read_redrock_ok h Hok). rewrite (read_scans_ok h None Hok) in Es. exact Es. }
    exists h, zs', fits, zf. cbn [chosen] in *. split; [exact Ew|]. split; [exact Er|]. split; [exact Es'|]. split; [congruence|]. split; [exact He|]. split; [exact Hx|]. split; [|split; assumption].
    rewrite Hp. rewrite filter_ext_in with (g := fun _ => true).
    - clear. induction (map (lower_row cast) zfit) as [|a l IH]; [constructor|]. cbn [filter]. now constructor.
    - intros r Hr. apply in_map_iff in Hr as (r0 & <- & Hr0). cbn [lower_row f_tid]. apply existsb_exists. exists (f_tid r0). split; [apply (do_rows _ _ _ _ D r0 Hr0)|apply Z.eqb_refl].
  Qed.

  (* ---------------- C62 ---------------- *)
  Theorem C62_select_partial : forall zs (zfit : list (frow P)) ids types sel, details_ok zs zfit ids types -> NoDup sel -> incl sel ids -> sel <> [] ->
    exists h zs1 fits1 zf1 zs2 fits2 zf2, write_zscan f32 cast zs zfit = Ok h /\
      read_zscan h None = Ok (zs1, fits1, zf1) /\ read_zscan h (Some sel) = Ok (zs2, fits2, zf2) /\
      (forall t, In t (map fst zs2) <-> In t sel) /\ NoDup (map fst zs2) /\
      (forall t ft, In t sel -> entry zs2 t ft = entry zs1 t ft /\ look fits2 t ft = look fits1 t ft) /\
      (forall t, In t sel -> filter (fun r => (f_tid r =? t)%Z) zf2 = filter (fun r => (f_tid r =? t)%Z) zf1) /\
      (forall r, In r zf2 -> In (f_tid r) sel) /\ (forall t ft, ~ In t sel -> look fits2 t ft = None).
  Proof.
    intros zs zfit ids types sel D Hn Hi Hne.
    destruct (roundtrip f32 cast zs zfit ids types None D (do_nodup _ _ _ _ D) (incl_refl _) (do_some _ _ _ _ D)) as (h & zs1 & fits1 & zf1 & Ew & Er & _ & Hm & He & _ & Hp & Ht & Hl & _).
    destruct (roundtrip f32 cast zs zfit ids types (Some sel) D Hn Hi Hne) as (h2 & zs2 & fits2 & zf2 & Ew2 & Er2 & _ & Hm2 & He2 & _ & Hp2 & Ht2 & Hl2 & Hl3).
    assert (h2 = h) by congruence. subst h2. cbn [chosen] in *. exists h, zs1, fits1, zf1, zs2, fits2, zf2. split; [exact Ew|]. split; [exact Er|]. split; [exact Er2|].
    split; [|split; [|split; [|split; [|split]]]].
    - intros t. rewrite Hm2. rewrite filter_In, existsb_exists. split.
      + intros (_ & x & Hx & E). apply Z.eqb_eq in E. now subst x.
      + intros H. split; [now apply Hi|]. exists t. split; [exact H|apply Z.eqb_refl].
    - rewrite Hm2. apply NoDup_filter. exact (do_nodup _ _ _ _ D).
    - intros t ft H. rewrite He2, Hl2 by exact H. rewrite He, Hl by (now apply Hi). auto.
    - intros t H. rewrite Ht2 by exact H. rewrite Ht by (now apply Hi). reflexivity.
    - intros r Hr. eapply Permutation_in in Hr; [|exact Hp2]. apply filter_In in Hr as [_ Hr]. apply existsb_exists in Hr as (x & Hx & E). apply Z.eqb_eq in E. now rewrite E.
    - exact Hl3.
  Qed.
  (* without the fits (nozfit) any list of ids is allowed *)
  Theorem C62_select_nozfit : forall zs (zfit : list (frow P)) ids types sel, details_ok zs zfit ids types ->
    exists h zs', write_zscan f32 cast zs zfit = Ok h /\ read_scans h (Some sel) = Ok zs' /\ (forall t, In t (map fst zs') <-> In t ids /\ In t sel) /\
      (forall t ft, In t ids -> In t sel -> entry zs' t ft = stored (entry zs t ft)).
  Proof.
    intros zs zfit ids types sel D. destruct (roundtrip_scans f32 cast zs zfit ids types sel D) as (h & zs' & Ew & Er & Hm & He & _). exists h, zs'. split; [exact Ew|]. split; [exact Er|]. split; [|exact He].
    intros t. rewrite Hm, filter_In, existsb_exists. split.
    - intros (H & x & Hx & E). apply Z.eqb_eq in E. subst x. auto.
    - intros [H1 H2]. split; [exact H1|]. exists t. split; [exact H2|apply Z.eqb_refl].
  Qed.
  (* an id that the file does not have, or no id at all, is an error *)
  Theorem C62_select_refuted : forall zs (zfit : list (frow P)) ids types, details_ok zs zfit ids types ->
    exists h, write_zscan f32 cast zs zfit = Ok h /\ (forall sel, (exists t, In t sel /\ ~ In t ids) -> read_zscan h (Some sel) = Err KeyError) /\
      read_zscan h (Some []) = Err ValueError /\
      (forall t, In t ids -> exists zs' fits zf, read_scans h (Some [t; t]) = Ok zs' /\ read_zfit h (Some [t; t]) = Ok zf /\ read_zfit h (Some [t]) = Ok fits /\ zf = fits ++ fits).
  Proof.
    intros zs zfit ids types D. destruct (write_ok f32 cast zs zfit ids types D) as (t0 & h & d0 & Ht0 & Ed & Ew & Hi & Hs & Hf & Hb).
    pose proof (written_ok f32 zs zfit ids types t0 h d0 D Ht0 Ed Hi Hs) as Hok. exists h. split; [exact Ew|]. split; [|split].
    - intros sel (t & Hin & Hnot). unfold read_zscan. rewrite (read_scans_ok h _ Hok). cbn [rbind]. unfold read_zfit. rewrite mapM_key_error; [reflexivity| |].
      + intros x _. destruct (dget (h_fit h) x); eauto.
      + exists t. split; [exact Hin|]. rewrite Hf, dget_h_fit_none by exact Hnot. reflexivity.
    - unfold read_zscan. rewrite (read_scans_ok h _ Hok). reflexivity.
    - intros t Ht. exists (map (fun p => (snd p, row_of h (fst p))) (selected (h_ids h) (Some [t; t]))), (filter (fun x => (f_tid x =? t)%Z) (map (lower_row cast) zfit)). eexists.
      split; [apply (read_scans_ok h _ Hok)|]. unfold read_zfit. cbn [mapM]. rewrite Hf, dget_h_fit by exact Ht. cbn [rbind concat]. rewrite !app_nil_r. auto.
  Qed.
End File.
Definition ex_scan (n : Z) (k : nat) : scan := {| sc_z := [0; 1#2]%Q; sc_chi2 := [inject_Z n; 3]%Q; sc_pen := [1; 1]%Q; sc_coeff := [repeat 1%Q k; repeat 2%Q k] |}.
Definition ex_zs : zscan_t := [(7%Z, [("GALAXY", ex_scan 5 3); ("STAR:::F", ex_scan 6 2)]); (3%Z, [("STAR:::F", ex_scan 7 2); ("GALAXY", ex_scan 8 3)])]%string.
Definition ex_row (t n : Z) (s u : string) : frow Z := {| f_tid := t; f_znum := n; f_type := s; f_sub := u; f_pay := n |}.
Definition ex_zfit : list (frow Z) := [ex_row 3 0 "GALAXY" ""; ex_row 3 1 "STAR" "F"; ex_row 7 0 "STAR" "F"; ex_row 7 1 "GALAXY" ""]%string.
Example C60_nonvacuous : details_ok ex_zs ex_zfit [3; 7]%Z ["GALAXY"; "STAR:::F"]%string.
Proof.
  constructor.
  - reflexivity.
  - repeat (constructor; [cbn; intros H; decompose [or] H; try contradiction; discriminate|]). constructor.
  - discriminate.
  - intros r [<-|[<-|[<-|[<-|[]]]]]; cbn; auto 10; repeat split; try lia; auto.
  - intros r r' H H'. cbn in H, H'. decompose [or] H; decompose [or] H'; subst; try contradiction; cbn; intros E; try discriminate E; auto.
  - intros ft [<-|[<-|[]]]; eexists; vm_compute; reflexivity.
  - intros t [<-|[<-|[]]]; cbn; eexists; (split; [reflexivity|split; [|cbn; tauto]]); repeat (constructor; [cbn; intros H; decompose [or] H; try contradiction; discriminate|]); constructor.
  - intros t t' ft s s' Ht Ht' E E'. cbn in Ht, Ht'. decompose [or] Ht; decompose [or] Ht'; subst; try contradiction; unfold entry in E, E'; cbn [dget ex_zs Z.eqb Pos.eqb sget] in E, E';
      destruct (String.eqb_spec "GALAXY" ft) as [G1|G1], (String.eqb_spec "STAR:::F" ft) as [G2|G2]; try discriminate E; try (rewrite <- G1 in G2; discriminate G2); injection E as <-; injection E' as <-; cbn; auto.
Qed.
(* a best fit whose full type has no scan (archetypes put their own subtype in the table):
   the file is written but cannot be read *)
Theorem C60_file_roundtrip_refuted : exists zs (zfit : list (frow Z)) h,
  NoDup (map f_tid zfit) /\ (forall r, In r zfit -> exists d, dget zs (f_tid r) = Some d) /\
  write_zscan (fun x => x) (fun x => x) zs zfit = Ok h /\ read_zscan h None = Err KeyError.
Proof.
  exists ex_zs, [ex_row 3 0 "GALAXY" "ELG"; ex_row 7 0 "STAR" "F"]%string. eexists. split; [|split; [|split; [reflexivity|vm_compute; reflexivity]]].
  - repeat (constructor; [cbn; intros H; decompose [or] H; try contradiction; discriminate|]). constructor.
  - intros r [<-|[<-|[]]]; cbn; eauto.
Qed.

(* ---------------- C61 ---------------- *)
(* the FITS writers, at every crash point, from any state of the disk *)
Theorem C61_atomic_partial : forall {B} (f : fs B) file tmp blocks pre, file <> tmp -> crash_point (write_fits_ops file tmp blocks) pre ->
  atomic_at (f file) (frun f pre file) blocks /\ (forall q, q <> file -> q <> tmp -> frun f pre q = f q) /\
  (forall blocks', frun (frun f pre) (write_fits_ops file tmp blocks') file = Some blocks' /\ frun (frun f pre) (write_fits_ops file tmp blocks') tmp = None).
Proof.
  intros B f file tmp blocks pre Hne (post & H). symmetry in H. split; [exact (write_prefix f file tmp blocks pre post Hne H)|]. split.
  - intros q H1 H2. exact (write_elsewhere f file tmp blocks pre post q H H1 H2).
  - intros blocks'. apply write_end. exact Hne.
Qed.
(* write_zscan when it does not replace a file, and its effect when it runs to the end *)
Theorem C61_zscan_atomic_partial : forall {B} (f : fs B) file clobber blocks pre, (clobber = false \/ f file = None) -> crash_point (write_zscan_ops f file clobber blocks) pre ->
  atomic_at (f file) (frun f pre file) blocks.
Proof.
  intros B f file clobber blocks pre Hc (post & H). unfold write_zscan_ops in H.
  assert (E : (clobber && match f file with Some _ => true | None => false end) = false) by (destruct Hc as [->| ->]; [reflexivity|apply andb_false_r]). rewrite E in H. cbn [app] in H.
  exact (write_prefix f file (tmp_of file) blocks pre post (tmp_ne file) (eq_sym H)).
Qed.
Theorem C61_zscan_complete : forall {B} (f : fs B) file clobber blocks, frun f (write_zscan_ops f file clobber blocks) file = Some blocks /\
  (forall q, q <> file -> q <> tmp_of file -> frun f (write_zscan_ops f file clobber blocks) q = f q).
Proof.
  intros B f file clobber blocks. unfold write_zscan_ops. rewrite frun_app. change (Create (tmp_of file) :: map (Append (tmp_of file)) blocks ++ [Rename (tmp_of file) file]) with (write_fits_ops file (tmp_of file) blocks).
  split; [apply write_end; apply tmp_ne|]. intros q H1 H2. rewrite (write_elsewhere _ file (tmp_of file) blocks _ [] q) by (try apply app_nil_r; assumption).
  destruct (_ && _); [|reflexivity]. cbn [frun fold_left fstep]. apply fset_other. congruence.
Qed.
(* replacing a details file (rrdesi and rrboss always pass clobber=True): after the first call the old
   file is gone and the new one does not exist *)
Theorem C61_atomic_refuted : forall {B} (f : fs B) file (old : list B) blocks, f file = Some old ->
  exists pre, crash_point (write_zscan_ops f file true blocks) pre /\ ~ atomic_at (f file) (frun f pre file) blocks /\ frun f pre file = None.
Proof.
  intros B f file old blocks H. exists [Remove file]. unfold write_zscan_ops. rewrite H. cbn [andb app]. split; [eexists; reflexivity|].
  cbn [frun fold_left fstep]. rewrite fset_same. split; [|reflexivity]. intros [E|E]; discriminate E.
Qed.
Example C61_nonvacuous : exists pre : list (fop nat), crash_point (write_fits_ops "o" "o.tmp" [1; 2; 3]) pre /\
  frun (fun _ => None) pre "o"%string = None /\ frun (fun _ => None) pre "o.tmp"%string = Some [1; 2].
Proof. exists [Create "o.tmp"; Append "o.tmp" 1; Append "o.tmp" 2]%string. split; [eexists; reflexivity|]. split; reflexivity. Qed.

(* ---------------- C63 ---------------- *)
Theorem C63_int8_exact_partial : forall z, int8 z = z <-> (-128 <= z <= 127)%Z.
Proof. intros z. unfold int8. pose proof (Z.mod_pos_bound (z + 128) 256 ltac:(lia)). split; [lia|]. intros H1. rewrite Z.mod_small by lia. lia. Qed.
Theorem C63_int8_refuted : (forall z, (128 <= z < 384)%Z -> int8 z = (z - 256)%Z) /\
  (* more than 256 fits of one target: a second row with znum 0, and the file cannot be written *)
  exists (zs : zscan_t) (zfit : list (frow Z)), (forall r, In r zfit -> (0 <= f_znum r < 300)%Z) /\ NoDup (map f_znum zfit) /\ (forall r, In r zfit -> f_tid r = 3%Z) /\
    write_zscan (fun x => x) (fun x => x) zs zfit = Err ValueError.
Proof.
  split.
  - intros z H. unfold int8. replace (z + 128)%Z with (z - 128 + 1 * 256)%Z by lia. rewrite Z.mod_add by lia. rewrite Z.mod_small by lia. lia.
  - exists ex_zs, (map (fun n => ex_row 3 n "GALAXY" ""%string) [0; 1; 256]%Z). split; [|split; [|split]].
    + intros r [<-|[<-|[<-|[]]]]; cbn; lia.
    + repeat (constructor; [cbn; intros H; decompose [or] H; try contradiction; discriminate|]). constructor.
    + intros r [<-|[<-|[<-|[]]]]; reflexivity.
    + vm_compute. reflexivity.
Qed.

(* ---------------- C64 ---------------- *)
Theorem C64_pack_roundtrip_partial : forall plate mjd fiber, (0 <= mjd < 100000)%Z -> (0 <= fiber < 10000)%Z ->
  targetid2platemjdfiber (platemjdfiber2targetid plate mjd fiber) = (plate, mjd, fiber).
Proof.
  intros p m f Hm Hf. unfold targetid2platemjdfiber, platemjdfiber2targetid.
  assert (E1 : ((p * 1000000000 + m * 10000 + f) / 10000 = p * 100000 + m)%Z) by (replace (p * 1000000000 + m * 10000 + f)%Z with ((p * 100000 + m) * 10000 + f)%Z by lia; rewrite Z.div_add_l, Z.div_small by lia; lia).
  assert (E2 : ((p * 1000000000 + m * 10000 + f) / (10000 * 100000) = p)%Z) by (rewrite <- Z.div_div by lia; rewrite E1, Z.div_add_l, Z.div_small by lia; lia).
  rewrite E2, E1. f_equal; [f_equal|].
  - rewrite Z.add_comm, Z.mod_add by lia. apply Z.mod_small; lia.
  - replace (p * 1000000000 + m * 10000 + f)%Z with (f + (p * 100000 + m) * 10000)%Z by lia. rewrite Z.mod_add by lia. apply Z.mod_small; lia.
Qed.
Theorem C64_unpack_roundtrip : forall t, let '(p, m, f) := targetid2platemjdfiber t in platemjdfiber2targetid p m f = t /\ (0 <= m < 100000)%Z /\ (0 <= f < 10000)%Z.
Proof.
  intros t. unfold targetid2platemjdfiber, platemjdfiber2targetid. pose proof (Z.div_mod t 10000 ltac:(lia)) as D1. pose proof (Z.div_mod (t / 10000) 100000 ltac:(lia)) as D2.
  rewrite <- Z.div_div by lia. pose proof (Z.mod_pos_bound t 10000 ltac:(lia)). pose proof (Z.mod_pos_bound (t / 10000) 100000 ltac:(lia)). lia.
Qed.
Theorem C64_pack_injective : forall p m f p' m' f', (0 <= m < 100000)%Z -> (0 <= f < 10000)%Z -> (0 <= m' < 100000)%Z -> (0 <= f' < 10000)%Z ->
  platemjdfiber2targetid p m f = platemjdfiber2targetid p' m' f' -> (p, m, f) = (p', m', f').
Proof. intros p m f p' m' f' H1 H2 H3 H4 E. rewrite <- (C64_pack_roundtrip_partial p m f H1 H2), <- (C64_pack_roundtrip_partial p' m' f' H3 H4). now rewrite E. Qed.
(* outside these ranges the parts run into each other *)
Theorem C64_pack_refuted : forall p m f, (0 <= p)%Z -> (0 <= m < 99999)%Z -> (10000 <= f < 20000)%Z ->
  targetid2platemjdfiber (platemjdfiber2targetid p m f) = (p, m + 1, f - 10000)%Z /\ platemjdfiber2targetid p m f = platemjdfiber2targetid p (m + 1) (f - 10000).
Proof.
  intros p m f Hp Hm Hf. assert (E : platemjdfiber2targetid p m f = platemjdfiber2targetid p (m + 1) (f - 10000)) by (unfold platemjdfiber2targetid; lia).
  split; [|exact E]. rewrite E. apply C64_pack_roundtrip_partial; lia.
Qed.
Example C64_nonvacuous : platemjdfiber2targetid 3586 55181 42 = 3586551810042%Z /\ targetid2platemjdfiber 3586551810042 = (3586, 55181, 42)%Z.
Proof. split; reflexivity. Qed.

(* ---------------- C65 ---------------- *)
Definition tmpl_key (k : string) : Prop := exists n, k = ("TEMNAM" ++ fmt02 n)%string \/ k = ("TEMVER" ++ fmt02 n)%string \/ k = ("TEMFIL" ++ fmt02 n)%string.
Definition desi_keys : list (string * (tmpl -> string)) := [("TEMNAM", t_full); ("TEMVER", t_version); ("TEMFIL", fun t => basename (t_file t))]%string.
Definition boss_keys : list (string * (tmpl -> string)) := [("TEMNAM", t_full); ("TEMVER", t_version)]%string.
Lemma keys_nd : NoDup (map fst desi_keys) /\ NoDup (map fst boss_keys).
Proof. split; repeat (constructor; [cbn; intros H; decompose [or] H; try contradiction; discriminate|]); constructor. Qed.
Lemma keys_len k : In k (map fst desi_keys) -> String.length k = 6.
Proof. cbn. intros H. decompose [or] H; subst; try contradiction; reflexivity. Qed.
Lemma keys_len' k : In k (map fst boss_keys) -> String.length k = 6.
Proof. cbn. intros H. decompose [or] H; subst; try contradiction; reflexivity. Qed.
Lemma base_no_key h0 p i : In p ["TEMNAM"; "TEMVER"; "TEMFIL"]%string -> (forall k, In k (map fst h0) -> In k ["LONGSTRN"; "RRVER"]%string) -> sget h0 (p ++ fmt02 i)%string = None :> option string.
Proof. intros Hp H. apply sget_none. intros Hin. apply H in Hin. cbn in Hp, Hin. decompose [or] Hp; subst; try contradiction; decompose [or] Hin; try contradiction; discriminate. Qed.
Lemma not_among l p i : In p ["TEMNAM"; "TEMVER"; "TEMFIL"]%string -> (forall k : string, In k (map fst l) -> ~ tmpl_key k) -> ~ In (p ++ fmt02 i)%string (map (@fst string string) l).
Proof. intros Hp H Hin. apply H in Hin. apply Hin. exists i. cbn in Hp. decompose [or] Hp; subst; try contradiction; auto. Qed.
(* the number in a keyword is two decimal digits *)
Theorem C65_key_format : forall a b, a < 10 -> b < 10 -> fmt02 (10 * a + b) = String (ascii_of_nat (48 + a)) (String (ascii_of_nat (48 + b)) EmptyString).
Proof.
  intros a b Ha Hb. do 10 (destruct a as [|a]; [do 10 (destruct b as [|b]; [reflexivity|]); lia|]). lia.
Qed.
(* the cards of the templates in the DESI header; other cards use other keywords *)
Theorem C65_header_lists_templates : forall version ts arch deps spec, (forall k, In k (map fst (arch ++ deps ++ spec)) -> ~ tmpl_key k) ->
  forall i t, nth_error ts i = Some t ->
    sget (get_header version ts arch deps spec) ("TEMNAM" ++ fmt02 i) = Some (t_full t) /\
    sget (get_header version ts arch deps spec) ("TEMVER" ++ fmt02 i) = Some (t_version t) /\
    sget (get_header version ts arch deps spec) ("TEMFIL" ++ fmt02 i) = Some (basename (t_file t)).
Proof.
  intros version ts arch deps spec H i t Ht.
  assert (G : forall p g, In (p, g) desi_keys -> sget (get_header version ts arch deps spec) (p ++ fmt02 i) = Some (g t)).
  { intros p g Hp. assert (Hp3 : In p ["TEMNAM"; "TEMVER"; "TEMFIL"]%string) by (cbn in Hp; decompose [or] Hp; try contradiction; match goal with E : (_, _) = (_, _) |- _ => injection E as <- _ end; cbn; auto).
    unfold get_header. rewrite !sget_fold by (apply not_among; [exact Hp3|]; intros k Hk; apply H; rewrite !map_app, !in_app_iff; auto).
    exact (cards_get desi_keys (proj1 keys_nd) keys_len ts _ i t p g Ht Hp). }
  split; [|split]; [apply (G "TEMNAM"%string t_full)|apply (G "TEMVER"%string t_version)|apply (G "TEMFIL"%string (fun t => basename (t_file t)))]; cbn; auto.
Qed.
(* reading a DESI header back: the file names of the first hundred templates, in order *)
Theorem C65_header_roundtrip_partial : forall version ts arch deps spec dir, (forall k, In k (map fst (arch ++ deps ++ spec)) -> ~ tmpl_key k) ->
  header2templatefiles (get_header version ts arch deps spec) dir = Ok (map (fun t => path_join dir (basename (t_file t))) (firstn 100 ts)).
Proof.
  intros version ts arch deps spec dir H. unfold header2templatefiles. set (hd := get_header version ts arch deps spec).
  assert (Hmiss : forall p i, In p ["TEMNAM"; "TEMVER"; "TEMFIL"]%string -> length ts <= i -> sget hd (p ++ fmt02 i)%string = None).
  { intros p i Hp Hi. unfold hd, get_header. rewrite !sget_fold by (apply not_among; [exact Hp|]; intros k Hk; apply H; rewrite !map_app, !in_app_iff; auto).
    change (fun p0 : nat * tmpl => tmpl_cards (fst p0) (snd p0)) with (fun p0 : nat * tmpl => cards desi_keys (fst p0) (snd p0)).
    rewrite (cards_miss desi_keys keys_len ts _ i p); [|left; exact Hi|cbn in Hp; decompose [or] Hp; subst; try contradiction; reflexivity].
    apply base_no_key; [exact Hp|]. cbn. auto. }
  set (F := fun i : nat => match sget hd ("TEMFIL" ++ fmt02 i)%string with Some f => Ok [f] | None => _ end).
  destruct (mapM_concat_firstn F (fun t : tmpl => basename (t_file t)) ts 100 0) as (r & E & C).
  - intros i t Ht _. unfold F. cbn [Nat.add]. destruct (C65_header_lists_templates version ts arch deps spec H i t Ht) as (_ & _ & E). unfold hd. rewrite E. reflexivity.
  - intros i [Hi _]. unfold F. cbn [Nat.add]. rewrite !Hmiss by (cbn; auto). reflexivity.
  - rewrite E. cbn [rbind]. rewrite C, map_map. reflexivity.
Qed.
(* nothing is lost up to a hundred templates; beyond, the rest is *)
Theorem C65_header_refuted : forall version ts arch deps spec dir, (forall k, In k (map fst (arch ++ deps ++ spec)) -> ~ tmpl_key k) -> 100 < length ts ->
  exists l, header2templatefiles (get_header version ts arch deps spec) dir = Ok l /\ length l = 100 /\ length l <> length ts.
Proof.
  intros version ts arch deps spec dir H Hl. eexists. split; [apply C65_header_roundtrip_partial; exact H|]. rewrite map_length, firstn_length. lia.
Qed.
Lemma basename_go_slash s : forall cur, ~ has_slash cur -> ~ has_slash (basename_go s cur).
Proof.
  assert (N : ~ has_slash EmptyString) by (intros (a & b & E); destruct a; discriminate).
  induction s as [|c s IH]; intros cur H; cbn [basename_go]; [exact H|]. destruct (Ascii.eqb_spec c "/") as [->|Hne]; [now apply IH|]. apply IH.
  intros (a & b & E). apply H. clear -E Hne. revert a E. induction cur as [|d cur IH]; intros a E; destruct a as [|x a]; cbn in E.
  - injection E as -> _. congruence.
  - injection E as _ E. destruct a; discriminate.
  - injection E as -> _. exists EmptyString, cur. reflexivity.
  - injection E as -> E. destruct (IH a E) as (a' & b' & ->). exists (String x a'), b'. reflexivity.
Qed.
(* the file read is the one of that name in the given directory *)
Theorem C65_path : forall dir f, ~ has_slash (basename f) /\ (dir <> EmptyString -> exists sep, (sep = "/"%string \/ sep = EmptyString /\ ends_slash dir = true) /\ path_join dir (basename f) = (dir ++ sep ++ basename f)%string).
Proof.
  intros dir f. assert (Hb : ~ has_slash (basename f)) by (apply basename_go_slash; intros (a & b & E); destruct a; discriminate). split; [exact Hb|]. intros Hd.
  unfold path_join. assert (Hs : forall x y z : string, match basename f with String "/" _ => x | _ => y end = y \/ has_slash (basename f)).
  { intros x y _. destruct (basename f) as [|c r] eqn:E; [now left|]. destruct (Ascii.eqb_spec c "/") as [->|Hne]; [right; exists EmptyString, r; reflexivity|left].
    destruct c as [[] [] [] [] [] [] [] []]; try reflexivity. congruence. }
  destruct dir as [|d0 dr]; [congruence|]. destruct (Hs (basename f) (if ends_slash (String d0 dr) then (String d0 dr ++ basename f)%string else (String d0 dr ++ "/" ++ basename f)%string) EmptyString) as [E|E]; [|contradiction].
  rewrite E. destruct (ends_slash (String d0 dr)) eqn:Es; [exists EmptyString|exists "/"%string]; auto.
Qed.
(* BOSS headers carry no file names: the default names are rebuilt from type, subtype and version *)
Theorem C65_boss_header_partial : forall version ts arch dir (nam : tmpl -> string * string), (forall k, In k (map fst arch) -> ~ tmpl_key k) ->
  (forall t, In t ts -> parse_fulltype (t_full t) = Ok (nam t) /\ strip (t_version t) <> "unknown"%string) ->
  header2templatefiles (boss_header version ts arch) dir =
    Ok (map (fun t => path_join dir ("rrtemplate-" ++ fst (nam t) ++ "-" ++ (if String.eqb (snd (nam t)) "" then "None" else snd (nam t)) ++ "-v" ++ strip (t_version t) ++ ".fits")) (firstn 100 ts)).
Proof.
  intros version ts arch dir nam H Hok. unfold header2templatefiles. set (hd := boss_header version ts arch).
  assert (Hhit : forall p g i t, In (p, g) boss_keys -> nth_error ts i = Some t -> sget hd (p ++ fmt02 i)%string = Some (g t)).
  { intros p g i t Hp Ht. assert (Hp3 : In p ["TEMNAM"; "TEMVER"; "TEMFIL"]%string) by (cbn in Hp; decompose [or] Hp; try contradiction; match goal with E : (_, _) = (_, _) |- _ => injection E as <- _ end; cbn; auto).
    unfold hd, boss_header. rewrite sget_fold by (apply not_among; [exact Hp3|exact H]). exact (cards_get boss_keys (proj2 keys_nd) keys_len' ts _ i t p g Ht Hp). }
  assert (Hmiss : forall p i, In p ["TEMNAM"; "TEMVER"; "TEMFIL"]%string -> length ts <= i \/ p = "TEMFIL"%string -> sget hd (p ++ fmt02 i)%string = None).
  { intros p i Hp Hi. unfold hd, boss_header. rewrite sget_fold by (apply not_among; [exact Hp|exact H]).
    change (fun p0 : nat * tmpl => [("TEMNAM" ++ fmt02 (fst p0), t_full (snd p0)); ("TEMVER" ++ fmt02 (fst p0), t_version (snd p0))]%string) with (fun p0 : nat * tmpl => cards boss_keys (fst p0) (snd p0)).
    rewrite (cards_miss boss_keys keys_len' ts _ i p).
    - apply base_no_key; [exact Hp|]. cbn. auto.
    - destruct Hi as [Hi| ->]; [now left|right]. cbn. intros C. decompose [or] C; try contradiction; discriminate.
    - cbn in Hp. decompose [or] Hp; subst; try contradiction; reflexivity. }
  set (F := fun i : nat => match sget hd ("TEMFIL" ++ fmt02 i)%string with Some f => Ok [f] | None => _ end).
  set (g := fun t : tmpl => ("rrtemplate-" ++ fst (nam t) ++ "-" ++ (if String.eqb (snd (nam t)) "" then "None" else snd (nam t)) ++ "-v" ++ strip (t_version t) ++ ".fits")%string).
  destruct (mapM_concat_firstn F g ts 100 0) as (r & E & C).
  - intros i t Ht _. unfold F. cbn [Nat.add]. rewrite (Hmiss "TEMFIL"%string) by (cbn; auto). rewrite (Hhit "TEMNAM"%string t_full i t), (Hhit "TEMVER"%string t_version i t) by (cbn; auto).
    destruct (Hok t (nth_error_In _ _ Ht)) as [Hp Hv]. rewrite Hp. cbn [rbind]. destruct (String.eqb_spec (strip (t_version t)) "unknown"); [contradiction|]. reflexivity.
  - intros i [Hi _]. unfold F. cbn [Nat.add]. rewrite !Hmiss by (cbn; auto). reflexivity.
  - rewrite E. cbn [rbind]. rewrite C, map_map. reflexivity.
Qed.
Example C65_nonvacuous : exists ts, (forall k, In k (map fst [("DEPNAM00", "numpy"); ("ARCNAM00", "GALAXY")]%string) -> ~ tmpl_key k) /\
  header2templatefiles (get_header "1" ts [("ARCNAM00", "GALAXY")]%string [("DEPNAM00", "numpy")]%string []) "/d" = Ok ["/d/g.fits"; "/d/s.fits"]%string.
Proof.
  exists [{| t_full := "GALAXY"; t_version := "2.6"; t_file := "/x/g.fits" |}; {| t_full := "STAR:::F"; t_version := "0.1"; t_file := "s.fits" |}]%string. split; [|reflexivity].
  intros k Hk (n & H). cbn in Hk. decompose [or] Hk; subst; try contradiction; decompose [or] H; discriminate.
Qed.

(* ---------------- C89 ---------------- *)
Lemma extend_get : forall cards own k v, sget own k = None -> NoDup (map fst cards) -> In (k, v) cards -> sget (extend_new own cards) k = Some v.
Proof.
  assert (K : forall cards own k v, sget own k = Some v -> sget (extend_new own cards) k = Some v).
  { induction cards as [|[a w] cards IH]; intros own k v H; [exact H|]. cbn [extend_new fold_left fst]. apply IH. destruct (sget own a) eqn:E; [exact H|].
    clear -H. induction own as [|[b x] own IH]; [discriminate|]. cbn [app sget] in *. destruct (String.eqb b k); [exact H|now apply IH]. }
  induction cards as [|[a w] cards IH]; intros own k v H Hn Hin; [destruct Hin|]. inversion Hn as [|? ? Ha Hl]; subst. cbn [extend_new fold_left fst]. fold (extend_new (match sget own a with Some _ => own | None => own ++ [(a, w)] end) cards).
  assert (App : forall (l : header) b x, sget l b = None -> sget (l ++ [(b, x)]) b = Some x).
  { induction l as [|[c y] l IHl]; intros b x Hb; cbn [app sget] in *; [now rewrite String.eqb_refl|]. destruct (String.eqb c b); [discriminate|now apply IHl]. }
  assert (Oth : forall (l : header) b x c, b <> c -> sget (l ++ [(b, x)]) c = sget l c).
  { induction l as [|[d y] l IHl]; intros b x c Hb; cbn [app sget]; [now destruct (String.eqb_spec b c)|]. destruct (String.eqb d c); [reflexivity|now apply IHl]. }
  destruct Hin as [E|Hin].
  - injection E as -> ->. rewrite H. apply K. now apply App.
  - apply IH; [|exact Hl|exact Hin]. destruct (sget own a); [exact H|]. rewrite Oth; [exact H|]. intros ->. apply Ha. apply in_map_iff. exists (k, v). auto.
Qed.
Lemma extend_keep : forall cards own k v, sget own k = Some v -> sget (extend_new own cards) k = Some v.
Proof.
  induction cards as [|[a w] cards IH]; intros own k v H; [exact H|]. cbn [extend_new fold_left fst]. apply IH. destruct (sget own a) eqn:E; [exact H|].
  clear -H. induction own as [|[b x] own IH]; [discriminate|]. cbn [app sget] in *. destruct (String.eqb b k); [exact H|now apply IH].
Qed.
Theorem C89_secondary_headers_partial : forall fm ef sc own,
  NoDup (map fst fm) -> (forall e, ef = Some e -> NoDup (map fst e)) ->
  (forall k v, sget own k = Some v -> sget (out_header (saved_headers fm ef sc) "FIBERMAP" own) k = Some v) /\
  (forall k v, sget own k = None -> In (k, v) fm -> sget (out_header (saved_headers fm ef sc) "FIBERMAP" own) k = Some v) /\
  (forall e k v, ef = Some e -> sget own k = None -> In (k, v) e -> sget (out_header (saved_headers fm ef sc) "EXP_FIBERMAP" own) k = Some v).
Proof.
  intros fm ef sc own H1 H2. split; [|split].
  - intros k v H. unfold out_header, saved_headers. cbn [app sget]. change (String.eqb "FIBERMAP" "FIBERMAP") with true. now apply extend_keep.
  - intros k v H Hin. unfold out_header, saved_headers. cbn [app sget]. change (String.eqb "FIBERMAP" "FIBERMAP") with true. now apply extend_get.
  - intros e k v -> H Hin. unfold out_header, saved_headers. cbn [app sget]. change (String.eqb "FIBERMAP" "EXP_FIBERMAP") with false. change (String.eqb "EXP_FIBERMAP" "EXP_FIBERMAP") with true. apply extend_get; auto.
Qed.
(* the cards of SCORES are saved under that name and looked up under TSNR2: they are never carried over *)
Theorem C89_scores_header_refuted : forall fm ef sc own, out_header (saved_headers fm ef sc) "TSNR2" own = own.
Proof. intros fm ef sc own. unfold out_header, saved_headers. destruct ef; reflexivity. Qed.
Example C89_nonvacuous : sget (out_header (saved_headers [("SURVEY", "main"); ("EXTNAME", "X")]%string None [("A", "b")]%string) "FIBERMAP" [("EXTNAME", "FIBERMAP")]%string) "SURVEY" = Some "main"%string
  /\ sget (out_header (saved_headers [("SURVEY", "main"); ("EXTNAME", "X")]%string None [("A", "b")]%string) "FIBERMAP" [("EXTNAME", "FIBERMAP")]%string) "EXTNAME" = Some "FIBERMAP"%string.
Proof. split; reflexivity. Qed.

(* ---------------- C90 ---------------- *)
Definition listed_path (dir line : string) : string :=
  let f := first_word (strip line) in if String.prefix "/" (strip line) then f else (dir ++ "/" ++ f)%string.
Lemma names_file_dec line : {names_file line} + {~ names_file line}.
Proof. unfold names_file. destruct (string_dec (strip line) ""), (String.prefix "#" (strip line)) eqn:E; [right|right|right|left]; try tauto; intros [? ?]; congruence. Qed.
Theorem C90_template_list_partial : forall dir exists_ lines,
  (forall l, In l lines -> String.length (strip l) <> 1) -> (forall l, In l lines -> names_file l -> exists_ (listed_path dir l) = true) ->
  template_lines dir exists_ lines = Ok (map (listed_path dir) (filter (fun l => if names_file_dec l then true else false) lines)).
Proof.
  intros dir ex lines H1 H2. unfold template_lines.
  rewrite (mapM_map_ok _ (fun l => if names_file_dec l then [listed_path dir l] else [])).
  - cbn [rbind]. f_equal. clear. induction lines as [|l ls IH]; [reflexivity|]. cbn [map concat filter]. rewrite IH. destruct (names_file_dec l); reflexivity.
  - intros l Hl. specialize (H1 l Hl). specialize (H2 l Hl). destruct (names_file_dec l) as [[Ha Hb]|Hn].
    + rewrite Hb, orb_false_r. destruct (Nat.ltb_spec (String.length (strip l)) 2) as [Hlt|Hge].
      * exfalso. destruct (strip l) as [|c r]; [congruence|]. cbn in *. lia.
      * change (if String.prefix "/" (strip l) then first_word (strip l) else (dir ++ "/" ++ first_word (strip l))%string) with (listed_path dir l). rewrite H2 by (split; assumption). reflexivity.
    + destruct (String.prefix "#" (strip l)) eqn:E; [now rewrite orb_true_r|]. destruct (string_dec (strip l) "") as [E2|E2]; [now rewrite E2|]. exfalso. apply Hn. split; assumption.
Qed.
Theorem C90_missing_file : forall dir exists_ lines l, In l lines -> String.length (strip l) <> 1 -> names_file l -> exists_ (listed_path dir l) = false -> template_lines dir exists_ lines = Err ValueError.
Proof.
  intros dir ex lines l Hin H1 [Ha Hb] He. unfold template_lines.
  match goal with |- (rbind (mapM ?F lines) _) = _ => set (f := F) end.
  assert (Hall : forall x, (exists y, f x = Ok y) \/ f x = Err ValueError) by (intros x; unfold f; destruct ((String.length (strip x) <? 2) || String.prefix "#" (strip x)); [eauto|]; match goal with |- context [if ex ?q then _ else _] => destruct (ex q) end; eauto).
  assert (Hl : f l = Err ValueError).
  { unfold f. rewrite Hb, orb_false_r. destruct (Nat.ltb_spec (String.length (strip l)) 2) as [Hlt|Hge].
    - exfalso. destruct (strip l) as [|c r]; [congruence|]. cbn in *. lia.
    - change (if String.prefix "/" (strip l) then first_word (strip l) else (dir ++ "/" ++ first_word (strip l))%string) with (listed_path dir l). now rewrite He. }
  assert (E : mapM f lines = Err ValueError); [|now rewrite E].
  clear -Hin Hall Hl. induction lines as [|a ls IH]; [destruct Hin|]. cbn [mapM]. destruct (Hall a) as [(y & E)|E]; rewrite E; cbn [rbind]; [|reflexivity].
  destruct Hin as [->|Hin]; [congruence|]. rewrite (IH Hin). reflexivity.
Qed.
(* a file whose name has one character is dropped without notice *)
Theorem C90_template_list_refuted : exists dir lines l, In l lines /\ names_file l /\ template_lines dir (fun _ => true) lines = Ok [].
Proof. exists "/t"%string, ["g"]%string, "g"%string. split; [now left|]. split; [split; [discriminate|reflexivity]|]. reflexivity. Qed.
Example C90_nonvacuous : template_lines "/t" (fun _ => true) ["# list"; " gal.fits extra "; ""; "/abs/qso.fits"]%string = Ok ["/t/gal.fits"; "/abs/qso.fits"]%string.
Proof. reflexivity. Qed.
Print Assumptions C60_file_roundtrip_partial. Print Assumptions C62_select_partial. Print Assumptions C65_boss_header_partial. Print Assumptions C61_atomic_partial.
