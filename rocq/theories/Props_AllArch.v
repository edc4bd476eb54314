(* C186: which archetypes are used when several files hold the same type. *)
From Verif Require Import Prelude PreludeFacts Model_Zscan Proof_Table Proof_IO2 Model_Arch Model_FindArch Spec_FindArch Proof_FindArch Model_AllArch.
Local Open Scope string_scope.
Lemma found_sorted fs dir l : find_archetypes fs dir = Ok l -> in_name_order l.
Proof.
  unfold find_archetypes. destruct dir as [d|].
  - destruct (af_isfile fs d); intro H; injection H as <-; [repeat constructor|apply sorted_ok].
  - destruct (af_env fs _); [intro H; injection H as <-; apply sorted_ok|]. destruct (af_pkg fs); intro H; [injection H as <-; apply sorted_ok|discriminate H].
Qed.
(* the last of the list wins *)
Lemma last_wins (f : string -> res archetype) names l : in_name_order names -> Forall2 (fun n A => f n = Ok A) names l -> forall d t A, sget (fold_left (fun d A => sset d (a_type A) A) l d) t = Some A ->
  (exists n, In n names /\ f n = Ok A /\ a_type A = t /\ forall n' A', In n' names -> f n' = Ok A' -> a_type A' = t -> (n' <=? n)%string = true) \/
  (sget d t = Some A /\ forall n' A', In n' names -> f n' = Ok A' -> a_type A' <> t).
Proof.
  intros S F. induction F as [|n B names l E F IH]; intros d t A H; [right; split; [exact H|intros ? ? []]|].
  cbn [fold_left] in H. inversion S as [|? ? S1 S2]; subst. rewrite Forall_forall in S2. destruct (IH S1 _ _ _ H) as [(m & Im & Em & Ty & Mx)|[G N]].
  - left. exists m. split; [now right|]. split; [exact Em|]. split; [exact Ty|]. intros n' A' [->|I'] E' T'; [exact (S2 m Im)|exact (Mx n' A' I' E' T')].
  - rewrite sget_sset in G. destruct (String.eqb (a_type B) t) eqn:Eb.
    + injection G as ->. apply String.eqb_eq in Eb. left. exists n. split; [now left|]. split; [exact E|]. split; [exact Eb|]. intros n' A' [->|I'] E' T'; [destruct (String.leb_total n' n'); assumption|]. exfalso. exact (N n' A' I' E' T').
    + right. split; [exact G|]. apply String.eqb_neq in Eb. intros n' A' [->|I'] E'; [congruence|exact (N n' A' I' E')].
Qed.
Lemma in_any (f : string -> res archetype) names l : Forall2 (fun n A => f n = Ok A) names l -> forall d t, sget (fold_left (fun d A => sset d (a_type A) A) l d) t = None -> sget d t = None /\ forall n A, In n names -> f n = Ok A -> a_type A <> t.
Proof.
  intro F. induction F as [|n B names l E F IH]; intros d t H; [split; [exact H|intros ? ? []]|]. cbn [fold_left] in H. destruct (IH _ _ H) as [G N]. rewrite sget_sset in G. destruct (String.eqb (a_type B) t) eqn:Eb; [discriminate G|].
  split; [exact G|]. apply String.eqb_neq in Eb. intros n' A' [->|I'] E'; [congruence|exact (N n' A' I' E')].
Qed.
(* If all listed files can be read, the archetypes of a type are those of the file of that type whose name comes last in name order; a type without a file has none. *)
Theorem C186_last_name : forall fs read dir names d, find_archetypes fs dir = Ok names -> All_archetypes fs read dir = Ok d ->
  (forall t A, sget d t = Some A <-> exists f, In f names /\ read (opened_as fs f) = Ok A /\ a_type A = t /\
     forall f' A', In f' names -> read (opened_as fs f') = Ok A' -> a_type A' = t -> (f' <=? f)%string = true) /\
  (forall t, sget d t = None <-> forall f A, In f names -> read (opened_as fs f) = Ok A -> a_type A <> t).
Proof.
  intros fs read dir names d Fn H. pose proof (found_sorted _ _ _ Fn) as S. unfold All_archetypes in H. rewrite Fn in H. cbn [rbind] in H.
  destruct (mapM _ names) as [l|] eqn:El; [|discriminate H]. cbn [rbind] in H. injection H as <-. apply mapM_Forall2 in El. unfold all_archetypes.
  assert (Sm : forall t A, sget (fold_left (fun d A => sset d (a_type A) A) l []) t = Some A -> exists f, In f names /\ read (opened_as fs f) = Ok A /\ a_type A = t /\
     forall f' A', In f' names -> read (opened_as fs f') = Ok A' -> a_type A' = t -> (f' <=? f)%string = true).
  { intros t A G. destruct (last_wins _ _ _ S El _ _ _ G) as [X|[X _]]; [exact X|discriminate X]. }
  split.
  - intros t A. split; [apply Sm|]. intros (f & If & Ef & Ty & Mx). destruct (sget _ t) as [B|] eqn:G.
    + destruct (Sm t B G) as (g & Ig & Eg & Tg & Mg). assert (E : f = g) by (apply String.leb_antisym; [now apply (Mg f A)|now apply (Mx g B)]). subst g. congruence.
    + exfalso. destruct (in_any _ _ _ El _ _ G) as [_ N]. now apply (N f A).
  - intro t. split.
    + intro G. exact (proj2 (in_any _ _ _ El _ _ G)).
    + intro N. destruct (sget _ t) as [B|] eqn:G; [|reflexivity]. exfalso. destruct (Sm t B G) as (g & Ig & Eg & Tg & _). now apply (N g B).
Qed.
(* One file that cannot be read stops the call. *)
Theorem C186_unreadable : forall fs read dir names f, find_archetypes fs dir = Ok names -> In f names -> (forall A, read (opened_as fs f) <> Ok A) -> forall d, All_archetypes fs read dir <> Ok d.
Proof.
  intros fs read dir names f Fn I N d H. unfold All_archetypes in H. rewrite Fn in H. cbn [rbind] in H. destruct (mapM _ names) as [l|] eqn:El; [|discriminate H]. apply mapM_Forall2 in El.
  clear H Fn. induction El as [|n B ns l E F IH]; [destruct I|]. destruct I as [->|I]; [now apply (N B)|auto].
Qed.
(* The last name is not the latest version: of the files ...-v2.fits and ...-v10.fits of one type the first is used. *)
Definition arch_of (v : string) : archetype := {| a_type := "GALAXY"; a_raw := [v]; a_wave := []; a_flux := [[]] |}.
Definition versions : archfs := {| af_isfile := fun _ => false; af_names := fun _ => ["rrarchetype-galaxy-v10.fits"; "rrarchetype-galaxy-v2.fits"]; af_env := fun _ => None; af_pkg := None |}.
Definition reader (s : string) : res archetype := if String.eqb s "/a/rrarchetype-galaxy-v10.fits" then Ok (arch_of "v10") else if String.eqb s "/a/rrarchetype-galaxy-v2.fits" then Ok (arch_of "v2") else Err OSError.
Theorem C186_latest_version_refuted : find_archetypes versions (Some "/a") = Ok ["/a/rrarchetype-galaxy-v10.fits"; "/a/rrarchetype-galaxy-v2.fits"] /\ All_archetypes versions reader (Some "/a") = Ok [("GALAXY", arch_of "v2")] /\
  reader (opened_as versions "/a/rrarchetype-galaxy-v10.fits") = Ok (arch_of "v10").
Proof. vm_compute. repeat split. Qed.
Print Assumptions C186_last_name. Print Assumptions C186_unreadable. Print Assumptions C186_latest_version_refuted.
